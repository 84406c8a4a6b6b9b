(** C131-C133: programs that use a file in several runs. *)
From Coq Require Import String Sorting.Sorted.
From Verif Require Import Base CIntModel GridModel GridSpec GridProofs StridedModel LayoutModel LayoutSpec LayoutProofs LayoutProofs2 CommModel FrameModel RegistryModel.
From Verif Require Import NetCDFModel NetCDFSpec NetCDFProofs7 NetCDFProofs8 NetCDFProofs10 NetCDFProofs11 NetCDFProps SessionModel SessionSpec SessionProofs5.
Local Open Scope Z_scope.
Local Open Scope list_scope.

(** ** C131 *)

(** A program creates a file and does anything with it.  It then writes a frame
    of some fields, in a mode that allows that: this succeeds.  Whatever it does
    next, in this run or in others, with any decomposition of the domain, the
    frame exists as long as the file is not replaced.  If that field in that frame
    was not written again, reading it succeeds, and every process gets the
    values that were written for its pixels. *)
Theorem C131_last_write {A : Type} (P : plan) (s0 : session A) known0 u0 mem0 hc0 c0 ops s1 known1 q k names fr s2 r2 :
  run P anything s0 known0 (Create u0 mem0 hc0 c0 :: ops) s1 known1 ->
  In q (pl_quantities P) -> In (q_name q) names -> allowed P known1 s1 (Write k names) -> se_mode s1 <> Reading -> accessed k (se_nb s1) = Ok fr ->
  step s1 (Write k names) = (s2, r2) ->
  r2 = Ok tt /\
  forall ops' s3 known3 k' names' s4 r4,
    run P (spares (q_name q) fr) s2 (learn P known1 s1 (Write k names) r2) ops' s3 known3 ->
    (exists h, entry_of q h) ->
    accessed fr (se_nb s3) = Ok fr /\
    (allowed P known3 s3 (Read k' names') -> In (q_name q) names' -> accessed k' (se_nb s3) = Ok fr ->
     step s3 (Read k' names') = (s4, r4) ->
     r4 = Ok tt /\
     forall h i j c b x a, entry_of q h -> in_shape (q_comp q) c -> 0 <= b < q_nsub q ->
       has_value s1 i q h c b x a -> has_pixel s3 j q x -> has_value s4 j q h c b x a).
Proof. exact (last_write P s0 known0 u0 mem0 hc0 c0 ops s1 known1 q k names fr s2 r2). Qed.
Print Assumptions C131_last_write.

(** A name that was not registered is refused, also after names that were; nothing is
    transferred if it comes first. *)
Lemma andthen_setup {A} (x : session A * res unit) f (s : session A) : se_setup (fst x) = se_setup s -> (forall s1, se_setup (fst (f s1)) = se_setup s1) -> se_setup (fst (andthen x f)) = se_setup s.
Proof. intros E F. unfold andthen. destruct (snd x); [|exact E|exact E]. now rewrite F. Qed.
Lemma each_entry_setup {A} (f : Z -> session A -> session A * res unit) : (forall h s, se_setup (fst (f h s)) = se_setup s) -> forall n h s, se_setup (fst (each_entry f h n s)) = se_setup s.
Proof. intros F. induction n as [|n IH]; intros h s; [reflexivity|]. cbn [each_entry]. apply andthen_setup; [apply F|]. intros. apply IH. Qed.
Lemma write_name_setup {A} k n (s : session A) : se_setup (fst (write_name k n s)) = se_setup s.
Proof.
  unfold write_name. destruct (get_variable _ _); [|reflexivity]. apply andthen_setup.
  - unfold before_write. destruct (sv_local s0) as [l|]; [|reflexivity]. destruct (se_mode s); try reflexivity.
    + unfold store. destruct (memberb _ _); [reflexivity|]. now destruct (write_ranks _ _ _ _ _ _).
    + unfold load. destruct (memberb _ _); [reflexivity|]. now destruct (mapm _ _).
  - intros s1. apply each_entry_setup. intros h s2. unfold write_entry. match goal with |- context [match ?r with Ok _ => _ | _ => _ end] => now destruct r end.
Qed.
Lemma read_name_setup {A} k n (s : session A) : se_setup (fst (read_name k n s)) = se_setup s.
Proof.
  unfold read_name. destruct (get_variable _ _); [|reflexivity]. apply andthen_setup.
  - unfold before_read. destruct (sv_local s0) as [l|]; [|reflexivity]. unfold load. destruct (memberb _ _); [reflexivity|]. now destruct (mapm _ _).
  - intros s1. apply each_entry_setup. intros h s2. unfold read_entry. match goal with |- context [match ?r with Ok _ => _ | _ => _ end] => now destruct r end.
Qed.
Lemma unknown_name {A} (f : string -> session A -> session A * res unit) name : (forall n s, se_setup (fst (f n s)) = se_setup s) ->
  forall names s, (forall s1, se_setup s1 = se_setup s -> snd (f name s1) <> Ok tt) -> In name names -> snd (each_name f names s) <> Ok tt.
Proof.
  intros F. induction names as [|n names IH]; intros s H I; [contradiction|]. cbn [each_name]. unfold andthen. destruct (snd (f n s)) as [[]| |] eqn:E.
  - destruct I as [->|I]; [now apply H in E|]. apply IH; [|exact I]. intros s1 E1. apply H. now rewrite E1, F.
  - rewrite E. discriminate.
  - rewrite E. discriminate.
Qed.
Theorem C131_unknown {A} (s : session A) k names name : (forall v, In v (su_vars (se_setup s)) -> v_name (sv_var v) <> name) ->
  step s (Write k (name :: names)) = (s, Err FileIOError) /\ step s (Read k (name :: names)) = (s, Err FileIOError) /\
  (In name names -> snd (step s (Write k names)) <> Ok tt /\ snd (step s (Read k names)) <> Ok tt).
Proof.
  intros H. assert (G : forall s1 : session A, se_setup s1 = se_setup s -> get_variable (su_vars (se_setup s1)) name = None).
  { intros s1 ->. unfold get_variable. destruct (find _ _) as [v|] eqn:E; [|reflexivity]. apply find_some in E. destruct E as [I E]. apply String.eqb_eq in E. now apply H in I. }
  pose proof (G s eq_refl) as G0. cbn [step each_name]. unfold write_name at 1, read_name at 1. rewrite G0. cbn [andthen snd]. split; [reflexivity|]. split; [reflexivity|].
  intros I. split; (apply unknown_name with (name := name); [|intros s1 E1; unfold write_name, read_name; rewrite (G s1 E1); discriminate|exact I]); [exact (write_name_setup k)|exact (read_name_setup k)].
Qed.
Print Assumptions C131_unknown.

(** A row of four pixels: a field with two components and two entries on all of
    it, and one on pixels 0, 1 and 3.  First two processes, then one. *)
Definition u_row (n loc : Z) : nfield := mk_nfield "u" "pixel" (grid ColMajor [n] [2] 1) [4] [loc].
Definition u_var : ncvar := the no_var (snd (register_global [4; 0; 0] false (Some 2) "u" (u_row 4 0))).
Definition a_part (n loc : Z) (ids : list Z) : SessionModel.part :=
  mk_part (row n loc) (fun _ => ids) (fun m => if String.eqb m "s" then two (length ids) else u_row n loc).
Definition a_setup (ps : list SessionModel.part) : setup :=
  mk_setup [mk_svar u_var None; mk_svar (two_var 3) (Some "px"%string)] ["px"%string] (fun _ => row_var) ps.
Definition two_parts : setup := a_setup [a_part 2 0 [0; 1]; a_part 2 2 [1]].
Definition one_part : setup := a_setup [a_part 4 0 [0; 1; 3]].
Definition qu : quantity := mk_quantity "u" (Some 2) [2] 1 "pixel" None.
Definition qs : quantity := mk_quantity "s" None [2] 1 "pixel" (Some "px"%string).
Definition a_plan : plan := mk_plan [4] [qu; qs] ["px"%string] (fun _ x => x = [0] \/ x = [1] \/ x = [3]) (fun _ => 3).
(** Memory: the two entries of u, and s. *)
Definition a_mem (u0 u1 s : list (list Z)) : string -> Z -> list (list Z) :=
  fun n h => if String.eqb n "s" then s else if h =? 0 then u0 else u1.
Definition mem_a : string -> Z -> list (list Z) :=
  a_mem [[1; 2; 3; 4]; [5; 6; 7; 8]] [[11; 12; 13; 14]; [15; 16; 17; 18]] [[21; 22; 23; 24]; [25; 26]].
Definition mem_b : string -> Z -> list (list Z) :=
  a_mem [[-1; -2; -3; -4]; [-5; -6; -7; -8]] [[-11; -12; -13; -14]; [-15; -16; -17; -18]] [[-21; -22; -23; -24]; [-25; -26]].
Definition mem_0 : string -> Z -> list (list Z) := a_mem [repeat 0 8] [repeat 0 8] [repeat 0 6].
Definition no_session : session Z :=
  mk_session Reading one_part 0 [] [] (fun _ => []) mem_0 (blank 0) (blank 0).
Definition exec (s : session Z) (ops : list (op Z)) : session Z := fold_left (fun s o => fst (step s o)) ops s.

Lemma u_row_field n loc (m : list Z) : 0 < n -> 0 <= loc -> loc + n <= 4 -> length m = (2 * Z.to_nat n)%nat ->
  distributed (u_row n loc) m /\ registered (Some 2) "u" (u_row n loc) u_var /\ shaped a_plan qu (u_row n loc).
Proof.
  intros N L B LM. assert (C : n = 1 \/ n = 2 \/ n = 3 \/ n = 4) by lia.
  assert (X : sane_dense (grid ColMajor [n] [2] 1) /\ l_nbuf (grid ColMajor [n] [2] 1) = n /\ l_npix (grid ColMajor [n] [2] 1) = n /\ l_pix (grid ColMajor [n] [2] 1) = [n] /\ l_comp (grid ColMajor [n] [2] 1) = [2] /\ l_nsub (grid ColMajor [n] [2] 1) = 1 /\ l_nbc (grid ColMajor [n] [2] 1) = 2).
  { split; [|destruct C as [->|[->|[->| ->]]]; vm_compute; auto 10].
    apply (global_order_dense ColMajor Automatic [n] [] [2] 1); [destruct C as [->|[->|[->| ->]]]; vm_compute; reflexivity|repeat constructor; lia|repeat constructor|vm_compute; reflexivity|lia|now left]. }
  destruct X as (SD & X1 & X2 & X3 & X4 & X5 & X6).
  split; [|split].
  - unfold distributed, buffer_scalars. cbn [u_row nf_lay nf_dom nf_loc]. rewrite X1, X2, X3, X5, X6, LM. destruct SD as [Sn _].
    split; [exact Sn|]. split; [unfold zprod; cbn; lia|]. split; [reflexivity|]. split; [reflexivity|]. split; [|lia].
    intros [|i] Hi; [|cbn in Hi; lia]. unfold zn; cbn [nth]. lia.
  - exists [4; 0; 0]. eexists. destruct C as [->|[->|[->| ->]]]; vm_compute; reflexivity.
  - unfold shaped. cbn [u_row nf_lay nf_tag]. rewrite X4, X5. auto.
Qed.
Lemma row_owns n loc x : 0 < n -> owns (row n loc) x <-> exists y, x = [y] /\ loc <= y < loc + n.
Proof.
  intros N. assert (X : l_pix (nf_lay (row n loc)) = [n]) by (unfold row, grid, nf_lay; destruct n; reflexivity || lia).
  unfold owns, in_box. rewrite X. cbn [row nf_loc length]. split.
  - intros [L H]. destruct x as [|y [|z x]]; [discriminate| |discriminate]. exists y. split; [reflexivity|]. specialize (H 0%nat ltac:(lia)). cbn in H. lia.
  - intros (y & -> & H). split; [reflexivity|]. intros [|i] Hi; [cbn; lia|cbn in Hi; lia].
Qed.
Lemma u_owns n loc x : 0 < n -> owns (u_row n loc) x -> exists y, x = [y] /\ loc <= y < loc + n.
Proof.
  intros N. assert (X : l_pix (nf_lay (u_row n loc)) = [n]) by (unfold u_row, grid, nf_lay; destruct n; reflexivity || lia).
  unfold owns, in_box. rewrite X. cbn [u_row nf_loc length]. intros [L H]. destruct x as [|y [|z x]]; [discriminate| |discriminate]. exists y. split; [reflexivity|]. specialize (H 0%nat ltac:(lia)). cbn in H. lia.
Qed.
Lemma two_registered n : registered_local 3 None "s" (two n) (two_var 3).
Proof.
  assert (T : 0 < 3) by lia. destruct (proc_is_process 4 0 (map Z.of_nat (seq 0 0)) [] 3) as (_ & _ & _ & _ & _ & (px & E) & _); [lia|lia|lia|lia|constructor|intros i []|reflexivity|].
  exists px. etransitivity; [|exact E]. reflexivity.
Qed.
Definition good_part (n loc : Z) (ids : list Z) : Prop :=
  0 < n /\ 0 <= loc /\ loc + n <= 4 /\ StronglySorted Z.lt ids /\
  (forall i, In i ids <-> 0 <= i < n /\ (loc + i = 0 \/ loc + i = 1 \/ loc + i = 3)).
Lemma a_fits (ps : list (Z * Z * list Z)) : ps <> [] -> (forall n loc ids, In (n, loc, ids) ps -> good_part n loc ids) ->
  ForallOrdPairs (fun a b => snd (fst a) + fst (fst a) <= snd (fst b)) ps ->
  (forall y, 0 <= y < 4 -> exists n loc ids, In (n, loc, ids) ps /\ loc <= y < loc + n) ->
  zsum (map (fun p => Z.of_nat (length (snd p))) ps) = 3 ->
  fits a_plan (a_setup (map (fun p => a_part (fst (fst p)) (snd (fst p)) (snd p)) ps)).
Proof.
  intros NE G OR CO TO.
  assert (PA : forall p, In p (map (fun p => a_part (fst (fst p)) (snd (fst p)) (snd p)) ps) -> exists n loc ids, p = a_part n loc ids /\ good_part n loc ids).
  { intros p I. apply in_map_iff in I. destruct I as ([[n loc] ids] & <- & I). exists n, loc, ids. split; [reflexivity|now apply G]. }
  assert (DJ : forall (R : SessionModel.part -> SessionModel.part -> Prop), (forall n loc ids n' loc' ids', good_part n loc ids -> good_part n' loc' ids' -> loc + n <= loc' -> R (a_part n loc ids) (a_part n' loc' ids')) ->
    ForallOrdPairs R (map (fun p => a_part (fst (fst p)) (snd (fst p)) (snd p)) ps)).
  { intros R HR. clear NE CO TO PA. induction OR as [|[[n loc] ids] l FA OR IH]; cbn [map]; constructor.
    - apply Forall_forall. intros p I. apply in_map_iff in I. destruct I as ([[n' loc'] ids'] & <- & I). cbn [fst snd]. rewrite Forall_forall in FA. specialize (FA _ I). cbn [fst snd] in FA.
      apply HR; [apply G; now left|apply G; now right|exact FA].
    - apply IH. intros; apply G; now right. }
  assert (ND : forall x y : Z, [x] = [y] -> x = y) by (intros x y E; now injection E).
  split; [|split; [|split; [|split; [|split; [|split; [|split; [|split; [|split; [|split]]]]]]]]]; cbn [a_setup su_vars su_colls su_hidden su_parts a_plan pl_quantities pl_colls pl_dom pl_pixels pl_total].
  - assert (E : map (fun v => v_name (sv_var v)) [mk_svar u_var None; mk_svar (two_var 3) (Some "px"%string)] = ["u"; "s"]%string) by (vm_compute; reflexivity). rewrite E. repeat constructor; cbn; intuition discriminate.
  - intros q [<-|[<-|[]]]; (split; [|split; [|split; [vm_compute; discriminate|]]]).
    + discriminate.
    + intros n E. injection E as <-. lia.
    + exists u_var. split; [now left|]. intros p I. destruct (PA p I) as (n & loc & ids & -> & (N1 & N2 & N3 & _)). cbn [qu q_name a_part pt_field q_local q_hist]. change (String.eqb "u" "s") with false. cbn match.
      destruct (u_row_field n loc (repeat 0 (2 * Z.to_nat n)) N1 N2 N3) as (_ & R & S); [apply repeat_length|]. split; [exact S|]. split; [exact R|reflexivity].
    + intros l E. injection E as <-. now left.
    + discriminate.
    + exists (two_var 3). split; [right; now left|]. intros p I. destruct (PA p I) as (n & loc & ids & -> & _). cbn [qs q_name a_part pt_field q_local q_hist]. change (String.eqb "s" "s") with true. cbn match.
      split; [repeat split|]. apply two_registered.
  - intros q [<-|[<-|[]]] EL; [|discriminate]. apply DJ. intros n loc ids n' loc' ids' (N1 & _) (N2 & _) LE x O O'. cbn [qu q_name a_part pt_field] in O, O'. change (String.eqb "u" "s") with false in O, O'. cbn match in O, O'.
    apply u_owns in O; [|exact N1]. apply u_owns in O'; [|exact N2]. destruct O as (y & -> & H), O' as (y' & E & H'). apply ND in E. lia.
  - destruct ps; [contradiction|discriminate].
  - repeat constructor. intros [].
  - reflexivity.
  - intros p I. destruct (PA p I) as (n & loc & ids & -> & (N1 & N2 & N3 & _)). split; [now apply row_pixels|reflexivity].
  - intros p q I J. destruct (PA p I) as (n & loc & ids & -> & _), (PA q J) as (n' & loc' & ids' & -> & _). reflexivity.
  - apply DJ. intros n loc ids n' loc' ids' (N1 & _) (N2 & _) LE x O O'. cbn [a_part pt_sub] in O, O'.
    apply row_owns in O; [|exact N1]. apply row_owns in O'; [|exact N2]. destruct O as (y & -> & H), O' as (y' & E & H'). apply ND in E. lia.
  - intros x [LX D]. destruct x as [|y [|z x]]; [discriminate| |discriminate]. specialize (D 0%nat ltac:(cbn; lia)). cbn in D. destruct (CO y D) as (n & loc & ids & I & H). exists (a_part n loc ids). split.
    + apply in_map_iff. exists (n, loc, ids). auto.
    + cbn [a_part pt_sub]. apply (proj2 (row_owns n loc [y] (proj1 (G n loc ids I)))). exists y. auto.
  - intros l [<-|[]]. split; [lia|]. split; [rewrite map_map; exact TO|]. intros p I. destruct (PA p I) as (n & loc & ids & -> & (N1 & N2 & N3 & SO & ID)). cbn [a_part pt_sub pt_ids].
    destruct (row_pixels n loc N1 N2 N3) as (_ & RP & PX). split; [exact RP|]. split; [exact SO|]. split.
    + intros i Ii. apply ID in Ii. destruct Ii as [Hi _]. exists [loc + i]. destruct (PX i Hi). auto.
    + intros x O. apply row_owns in O; [|exact N1]. destruct O as (y & -> & Hy). destruct (PX (y - loc) ltac:(lia)) as [_ E]. replace (loc + (y - loc)) with y in E by lia. rewrite E, ID.
      replace (loc + (y - loc)) with y by lia. split.
      * intros [_ [->|[->| ->]]]; auto.
      * intros [Q|[Q|Q]]; apply ND in Q; subst y; split; auto; lia.
Qed.
Lemma two_parts_fit : fits a_plan two_parts.
Proof.
  apply (a_fits [(2, 0, [0; 1]); (2, 2, [1])]); [discriminate| | | |reflexivity].
  - intros n loc ids [E|[E|[]]]; injection E as <- <- <-; unfold good_part; (split; [lia|]; split; [lia|]; split; [lia|]; split; [repeat (apply SSorted_nil || apply SSorted_cons || apply Forall_nil || apply Forall_cons || reflexivity)|intros i; cbn [In]; lia]).
  - repeat constructor; cbn; lia.
  - intros y Hy. destruct (Z.lt_ge_cases y 2); [exists 2, 0, [0; 1]|exists 2, 2, [1]]; (split; [cbn; auto|lia]).
Qed.
Lemma one_part_fits : fits a_plan one_part.
Proof.
  apply (a_fits [(4, 0, [0; 1; 3])]); [discriminate| | | |reflexivity].
  - intros n loc ids [E|[]]; injection E as <- <- <-; unfold good_part; (split; [lia|]; split; [lia|]; split; [lia|]; split; [repeat (apply SSorted_nil || apply SSorted_cons || apply Forall_nil || apply Forall_cons || reflexivity)|intros i; cbn [In]; lia]).
  - repeat constructor.
  - intros y Hy. exists 4, 0, [0; 1; 3]. split; [cbn; auto|lia].
Qed.
Lemma two_local n (m : list Z) : length m = (2 * n)%nat -> local_field (two n) (Z.of_nat n) m.
Proof. intros L. split; [reflexivity|]. split; [lia|]. split; [repeat constructor|]. split; [reflexivity|]. split; [reflexivity|]. cbn [two nf_lay local_layout layout_of_shape l_comp l_nsub]. change (zprod [2]) with 2. lia. Qed.
Lemma two_parts_sized u0 u1 v0 v1 s0 s1 : length u0 = 4%nat -> length u1 = 4%nat -> length v0 = 4%nat -> length v1 = 4%nat -> length s0 = 4%nat -> length s1 = 2%nat ->
  sized a_plan two_parts (a_mem [u0; u1] [v0; v1] [s0; s1]).
Proof.
  intros L1 L2 L3 L4 L5 L6 q h [<-|[<-|[]]] EH; (split; [unfold a_mem; cbn; now destruct (h =? 0)|]); intros i p m Ep Em; cbn [qu qs q_local q_name] in *; unfold a_mem in Em.
  - change (String.eqb "u" "s") with false in Em. cbn match in Em.
    destruct i as [|[|i]]; [| |destruct i; discriminate]; cbn in Ep; injection Ep as <-; (destruct (h =? 0); cbn in Em; injection Em as <-); cbn [a_part pt_field]; change (String.eqb "u" "s") with false; cbn match; apply u_row_field; lia || assumption.
  - change (String.eqb "s" "s") with true in Em. cbn match in Em.
    destruct i as [|[|i]]; [| |destruct i; discriminate]; cbn in Ep; injection Ep as <-; cbn in Em; injection Em as <-; cbn [a_part pt_field pt_ids]; change (String.eqb "s" "s") with true; cbn match; apply two_local; assumption.
Qed.
Lemma one_part_sized : sized a_plan one_part mem_0.
Proof.
  intros q h [<-|[<-|[]]] EH; (split; [unfold mem_0, a_mem; cbn; now destruct (h =? 0)|]); intros i p m Ep Em; cbn [qu qs q_local q_name] in *; unfold mem_0, a_mem in Em.
  - change (String.eqb "u" "s") with false in Em. cbn match in Em.
    destruct i as [|i]; [|destruct i; discriminate]; cbn in Ep; injection Ep as <-; (destruct (h =? 0); cbn in Em; injection Em as <-); cbn [a_part pt_field]; change (String.eqb "u" "s") with false; cbn match; apply u_row_field; lia || reflexivity.
  - change (String.eqb "s" "s") with true in Em. cbn match in Em.
    destruct i as [|i]; [|destruct i; discriminate]; cbn in Ep; injection Ep as <-; cbn in Em; injection Em as <-; cbn [a_part pt_field pt_ids]; change (String.eqb "s" "s") with true; cbn match; apply two_local; reflexivity.
Qed.

(** Two frames are written by two processes, s twice in the second one, with
    other values in between; the file is then extended by one process, which
    reads what was written last. *)
Definition ops_a : list (op Z) :=
  [Create two_parts mem_a (fun _ _ => 77) (fun _ _ => 99); AppendFrame; Write 0 ["u"; "s"]; AppendFrame; Write (-1) ["s"]; Assign mem_b]%string.
Definition ops_b : list (op Z) :=
  [Reopen true one_part mem_0; AppendFrame; Write 2 ["s"; "u"]; Read 0 ["s"; "u"]; Reopen false two_parts mem_a; Reopen false one_part mem_0]%string.
Example C131_case :
  (exists known, run a_plan anything no_session [] ops_a (exec no_session ops_a) known /\ In "px"%string known /\
     let s2 := exec no_session (ops_a ++ [Write 1 ["s"; "u"]%string]) in
     run a_plan (spares "s" 1) s2 (["px"%string] ++ known) ops_b (exec s2 ops_b) (["px"%string] ++ known)) /\
  let s4 := exec no_session (ops_a ++ [Write 1 ["s"; "u"]%string] ++ ops_b ++ [Read (-2) ["s"; "u"]%string]) in
  se_nb s4 = 3 /\ se_mem s4 "s" 0 = [[-21; -22; -23; -24; -25; -26]] /\ se_mem s4 "u" 1 = [[-11; -12; -13; -14; -15; -16; -17; -18]] /\
  let s5 := fst (step s4 (Read 0 ["s"; "u"]%string)) in
  se_mem s5 "s" 0 = [[21; 22; 23; 24; 25; 26]] /\ se_mem s5 "u" 1 = [[11; 12; 13; 14; 15; 16; 17; 18]].
Proof.
  assert (NM : forall names, (forall n, In n names -> n = "u" \/ n = "s")%string -> named a_plan names).
  { intros names H n I. destruct (H n I) as [->| ->]; [exists qu|exists qs]; (split; [cbn; auto|reflexivity]). }
  assert (PO : forall known names, In "px"%string known -> positioned a_plan known names).
  { intros known names I q l [<-|[<-|[]]] _ E; [discriminate|]. injection E as <-. exact I. }
  assert (SA : sized a_plan two_parts mem_a) by now apply two_parts_sized. assert (SB : sized a_plan two_parts mem_b) by now apply two_parts_sized.
  pose proof two_parts_fit as F2. pose proof one_part_fits as F1. pose proof one_part_sized as S1.
  assert (US : forall n, In n ["s"; "u"]%string -> n = "u"%string \/ n = "s"%string) by (cbn; intuition).
  split.
  - exists ["px"; "px"]%string. split; [|split; [now left|]].
    + unfold ops_a, exec. cbn [fold_left].
      eapply run_step; [split; assumption|exact I|apply surjective_pairing|].
      eapply run_step; [exact I|exact I|apply surjective_pairing|].
      eapply run_step; [split; [apply NM; cbn; intuition|intros EM; exfalso; revert EM; vm_compute; discriminate]|exact I|apply surjective_pairing|].
      eapply run_step; [exact I|exact I|apply surjective_pairing|].
      eapply run_step; [split; [apply NM; cbn; intuition|intros EM; exfalso; revert EM; vm_compute; discriminate]|exact I|apply surjective_pairing|].
      eapply run_step; [exact SB|exact I|apply surjective_pairing|].
      match goal with |- run _ _ _ ?k [] _ _ => replace k with ["px"; "px"]%string by (vm_compute; reflexivity) end. apply run_end.
    + cbv zeta. set (s2 := exec no_session _). unfold ops_b, exec. cbn [fold_left].
      eapply run_step; [split; assumption|exact I|apply surjective_pairing|].
      eapply run_step; [exact I|exact I|apply surjective_pairing|].
      eapply run_step; [split; [now apply NM|intros _; apply PO; cbn; auto]|intros [_ E]; revert E; vm_compute; discriminate|apply surjective_pairing|].
      match goal with |- run _ _ _ ?k _ _ _ => replace k with ["px"; "px"; "px"]%string by (vm_compute; reflexivity) end.
      eapply run_step; [split; [now apply NM|apply PO; cbn; auto]|exact I|apply surjective_pairing|].
      eapply run_step; [split; assumption|exact I|apply surjective_pairing|].
      eapply run_step; [split; assumption|exact I|apply surjective_pairing|].
      apply run_end.
  - vm_compute. repeat split.
Qed.

Example C131_unknown_case :
  (forall v, In v (su_vars (se_setup (exec no_session ops_a))) -> v_name (sv_var v) <> "t"%string) /\
  snd (step (exec no_session ops_a) (Write 1 ["s"; "t"]%string)) = Err FileIOError /\ snd (step (exec no_session ops_a) (Write 1 ["s"; "u"]%string)) = Ok tt.
Proof. split; [vm_compute; intros v [<-|[<-|[]]]; discriminate|]. vm_compute. split; reflexivity. Qed.

(** ** C132 *)

(** In a new file: a local field that is read before it was written for the
    first time replaces the positions of its pixels by what happens to be in the
    file.  Writing it afterwards reports success, and another run that reads it
    reports success, but does not get the values. *)
Definition lost (before : list (op Z)) : Prop :=
  let s1 := exec no_session before in
  let s2 := fst (step s1 (Write 0 ["s"%string])) in
  let s3 := fst (step s2 (Reopen false one_part mem_0)) in
  let s4 := fst (step s3 (Read 0 ["s"%string])) in
  accessed 0 (se_nb s1) = Ok 0 /\ snd (step s1 (Write 0 ["s"%string])) = Ok tt /\ snd (step s3 (Read 0 ["s"%string])) = Ok tt /\
  exists i j x a, has_value s1 i qs 0 [0] 0 x a /\ has_pixel s3 j qs x /\ ~ has_value s4 j qs 0 [0] 0 x a.
Lemma lost_value (s1 s3 s4 : session Z) : nth_error (su_parts (se_setup s1)) 0 = Some (a_part 2 0 [0; 1]) -> nth_error (se_mem s1 "s" 0) 0 = Some [21; 22; 23; 24] ->
  nth_error (su_parts (se_setup s3)) 0 = Some (a_part 4 0 [0; 1; 3]) -> nth_error (su_parts (se_setup s4)) 0 = Some (a_part 4 0 [0; 1; 3]) -> nth_error (se_mem s4 "s" 0) 0 = Some [0; 0; 0; 0; 0; 0] ->
  exists i j x (a : Z), has_value s1 i qs 0 [0] 0 x a /\ has_pixel s3 j qs x /\ ~ has_value s4 j qs 0 [0] 0 x a.
Proof.
  intros E1 M1 E3 E4 M4. exists 0%nat, 0%nat, [0], 21.
  assert (O2 : owns (row 2 0) [0]) by (apply (proj2 (row_owns 2 0 [0] ltac:(lia))); exists 0; split; [reflexivity|lia]).
  assert (O4 : owns (row 4 0) [0]) by (apply (proj2 (row_owns 4 0 [0] ltac:(lia))); exists 0; split; [reflexivity|lia]).
  split; [|split].
  - exists (a_part 2 0 [0; 1]), [21; 22; 23; 24]. split; [exact E1|]. split; [exact M1|]. cbv zeta. exists 0%nat. split; [exact O2|]. split; [vm_compute; reflexivity|]. eexists. split; vm_compute; reflexivity.
  - exists (a_part 4 0 [0; 1; 3]). split; [exact E3|]. split; [exact O4|]. vm_compute. auto.
  - intros (p & m & Ep & Em & HV). rewrite E4 in Ep. injection Ep as <-. change (q_name qs) with "s"%string in Em. rewrite M4 in Em. injection Em as <-. cbv zeta in HV. destruct HV as (j & _ & Ej & HV).
    assert (EI : pixel_id (pt_sub (a_part 4 0 [0; 1; 3])) [0] = 0) by (vm_compute; reflexivity). rewrite EI in Ej.
    destruct j as [|[|[|j]]]; [|discriminate Ej|discriminate Ej|destruct j; discriminate Ej]. destruct HV as (st & Es & R). vm_compute in Es. injection Es as <-. vm_compute in R. discriminate.
Qed.
Theorem C132_read_first_refuted : fits a_plan two_parts /\ sized a_plan two_parts mem_a /\ fits a_plan one_part /\ sized a_plan one_part mem_0 /\
  lost [Create two_parts mem_a (fun _ _ => -1) (fun _ _ => 99); AppendFrame; Read 0 ["s"%string]; Write 0 ["u"%string]].
Proof.
  split; [exact two_parts_fit|]. split; [now apply two_parts_sized|]. split; [exact one_part_fits|]. split; [exact one_part_sized|].
  unfold lost. split; [vm_compute; reflexivity|]. split; [vm_compute; reflexivity|]. split; [vm_compute; reflexivity|]. apply lost_value; vm_compute; reflexivity.
Qed.
Print Assumptions C132_read_first_refuted.
(** With zeros in the file, reading is refused, and writing afterwards reads
    beyond the end of the field. *)
Theorem C132_failed_read_refuted : let s1 := exec no_session [Create two_parts mem_a (fun _ _ => 0) (fun _ _ => 0); AppendFrame] in
  let s2 := fst (step s1 (Read 0 ["s"%string])) in
  snd (step s1 (Write 0 ["s"%string])) = Ok tt /\ snd (step s1 (Read 0 ["s"%string])) = Err FileIOError /\
  snd (step s2 (Write 0 ["s"%string])) = UB.
Proof. vm_compute. repeat split. Qed.
Print Assumptions C132_failed_read_refuted.

(** ** C133 *)

(** A local field that is registered in the run that creates the file, but not
    written in it, cannot be written by a run that extends the file: the
    positions of its pixels are whatever happens to be in the file. *)
Theorem C133_written_later_refuted :
  lost [Create two_parts mem_a (fun _ _ => -1) (fun _ _ => 99); AppendFrame; Write 0 ["u"%string]; Reopen true two_parts mem_a] /\
  snd (step (exec no_session [Create two_parts mem_a (fun _ _ => 0) (fun _ _ => 0); AppendFrame; Write 0 ["u"%string]; Reopen true two_parts mem_a])
            (Write 0 ["s"%string])) = UB.
Proof.
  split; [|vm_compute; reflexivity].
  unfold lost. split; [vm_compute; reflexivity|]. split; [vm_compute; reflexivity|]. split; [vm_compute; reflexivity|]. apply lost_value; vm_compute; reflexivity.
Qed.
Print Assumptions C133_written_later_refuted.
