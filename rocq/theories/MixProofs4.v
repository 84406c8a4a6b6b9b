(** Programs with global and local collections, call by call. *)
From Coq Require Import String Sorting.Sorted.
From Verif Require Import Base CIntModel GridModel GridSpec StridedModel UnitsModel LayoutModel LayoutSpec LayoutProofs FieldModel FieldSpec.
From Verif Require Import RegistryModel RegistrySpec RegistryProofs RegistryProofs2 NumpyModel NumpySpec PyArrayModel PyArraySpec PyArrayProofs.
From Verif Require Import FrameModel CommModel NetCDFModel NetCDFSpec NetCDFProofs4 NetCDFProofs5.
From Verif Require Import SessionModel SessionSpec SessionProofs SessionProofs3 SessionProofs5 StackModel StackSpec StackProofs StackProofs2 StackProofs3 MixModel MixSpec MixProofs MixProofs2 MixProofs3.
Local Open Scope Z_scope.
Local Open Scope list_scope.

(** ** Memory keeps its length when something is read, also that of local fields *)
Section Lengths.
Context {A : Type}.
Notation session := (SessionModel.session A).
Implicit Types s : session.
Definition positions_ranked s : Prop := forall v l, In v (su_vars (se_setup s)) -> sv_local v = Some l -> length (se_hidden s l) = length (su_parts (se_setup s)).
Lemma read_entry_keeps k v h s : In v (su_vars (se_setup s)) -> positions_ranked s -> ranked s ->
  let s' := fst (read_entry k v h s) in same_lengths (se_mem s) (se_mem s') /\ se_setup s' = se_setup s /\ positions_ranked s' /\ ranked s'.
Proof.
  intros Iv H R. unfold read_entry. set (r := match sv_local v with None => _ | Some _ => _ end). destruct r as [ms| |] eqn:E; cbn zeta; cbn [fst]; [|split; [apply StackProofs3.lengths_refl|auto]..].
  cbn [with_mem se_mem se_setup]. assert (SL : same_lengths (se_mem s) (fun n e => if String.eqb n (v_name (sv_var v)) && (e =? h) then ms else se_mem s n e)).
  { intros n e. destruct (String.eqb n (v_name (sv_var v)) && (e =? h)) eqn:B; [|reflexivity]. apply andb_true_iff in B. destruct B as [B1 B2]. apply String.eqb_eq in B1. apply Z.eqb_eq in B2. subst n e.
    unfold r in E. destruct (sv_local v) as [l|] eqn:El.
    - eapply mapm_lengths in E; [|intros x y Hx; now apply read_local_len in Hx]. rewrite E. apply combine_lengths.
      rewrite combine_length. unfold fields_of. rewrite map_length, R, (H v l Iv El). lia.
    - eapply mapm_lengths in E; [|intros x y Hx; now apply read_global_len in Hx]. rewrite E. apply combine_lengths.
      unfold fields_of. now rewrite map_length, R. }
  split; [exact SL|]. split; [reflexivity|]. split; [exact H|]. intros n e. cbn [with_mem se_mem se_setup]. specialize (SL n e). apply (f_equal (@length nat)) in SL. rewrite !map_length in SL. now rewrite SL, R.
Qed.
Lemma each_entry_keeps k v n : forall h s, In v (su_vars (se_setup s)) -> positions_ranked s -> ranked s ->
  let s' := fst (each_entry (read_entry k v) h n s) in same_lengths (se_mem s) (se_mem s') /\ se_setup s' = se_setup s /\ positions_ranked s' /\ ranked s'.
Proof.
  induction n as [|n IH]; intros h s Iv H R; cbn zeta; cbn [each_entry fst]; [split; [apply StackProofs3.lengths_refl|auto]|].
  destruct (read_entry_keeps k v h s Iv H R) as (L1 & E1 & H1 & R1). unfold andthen. destruct (snd (read_entry k v h s)); [|split; [exact L1|auto]..].
  destruct (IH (h + 1) (fst (read_entry k v h s)) ltac:(rewrite E1; exact Iv) H1 R1) as (L2 & E2 & H2 & R2). split; [now apply (StackProofs3.lengths_trans _ _ _ L1)|]. split; [congruence|auto].
Qed.
Lemma before_read_keeps v s : In v (su_vars (se_setup s)) -> positions_ranked s -> ranked s ->
  let s' := fst (before_read v s) in se_mem s' = se_mem s /\ se_setup s' = se_setup s /\ positions_ranked s' /\ ranked s'.
Proof.
  intros Iv H R. unfold before_read. destruct (sv_local v) as [l|] eqn:El; cbn zeta; [|cbn [fst]; auto]. unfold load. destruct (memberb l (se_read s)); [cbn [fst]; auto|].
  destruct (mapm _ _) as [hs| |] eqn:E; cbn [fst]; [|auto..]. cbn [se_mem se_setup]. split; [reflexivity|]. split; [reflexivity|]. split; [|exact R].
  intros w l' Iw Ew. cbn [se_hidden se_setup]. unfold set_at. destruct (String.eqb_spec l' l) as [->|]; [|exact (H w l' Iw Ew)].
  destruct (mapm_at _ _ _ E) as (-> & _). cbn [se_setup] in *. rewrite combine_length. unfold subs. rewrite map_length, (H v l Iv El). lia.
Qed.
Lemma read_name_keeps k n s : positions_ranked s -> ranked s ->
  let s' := fst (read_name k n s) in same_lengths (se_mem s) (se_mem s') /\ se_setup s' = se_setup s /\ positions_ranked s' /\ ranked s'.
Proof.
  intros H R. cbn zeta. unfold read_name. destruct (get_variable (su_vars (se_setup s)) n) as [v|] eqn:G; [|cbn; split; [apply StackProofs3.lengths_refl|auto]].
  unfold get_variable in G. apply find_some in G. destruct G as [Iv _]. destruct (before_read_keeps v s Iv H R) as (M1 & E1 & H1 & R1). unfold andthen. destruct (snd (before_read v s)); [|rewrite M1; split; [apply StackProofs3.lengths_refl|auto]..].
  destruct (each_entry_keeps k v (entries (sv_var v)) 0 (fst (before_read v s)) ltac:(rewrite E1; exact Iv) H1 R1) as (L2 & E2 & H2 & R2). rewrite M1 in L2. split; [exact L2|]. split; [congruence|auto].
Qed.
Lemma read_keeps k names : forall s, positions_ranked s -> ranked s ->
  let s' := fst (SessionModel.step s (Read k names)) in same_lengths (se_mem s) (se_mem s') /\ se_setup s' = se_setup s /\ positions_ranked s' /\ ranked s'.
Proof.
  cbn [SessionModel.step]. induction names as [|n names IH]; intros s H R; cbn zeta; cbn [each_name fst]; [split; [apply StackProofs3.lengths_refl|auto]|].
  destruct (read_name_keeps k n s H R) as (L1 & E1 & H1 & R1). unfold andthen. destruct (snd (read_name k n s)); [|split; [exact L1|auto]..].
  destruct (IH (fst (read_name k n s)) H1 R1) as (L2 & E2 & H2 & R2). split; [now apply (StackProofs3.lengths_trans _ _ _ L1)|]. split; [congruence|auto].
Qed.
(** Reading does not change the setup. *)
Lemma read_entries_setup k v n : forall h s, se_setup (fst (each_entry (read_entry k v) h n s)) = se_setup s.
Proof.
  induction n as [|n IH]; intros h s; cbn [each_entry fst]; [reflexivity|].
  assert (E : se_setup (fst (read_entry k v h s)) = se_setup s) by (unfold read_entry; cbn zeta; match goal with |- context [match ?x with Ok _ => _ | Err _ => _ | UB => _ end] => destruct x end; reflexivity).
  unfold andthen. destruct (snd (read_entry k v h s)); [|exact E..]. now rewrite IH.
Qed.
Lemma read_setup k names : forall s, se_setup (fst (SessionModel.step s (Read k names))) = se_setup s.
Proof.
  cbn [SessionModel.step]. induction names as [|n names IH]; intros s; cbn [each_name fst]; [reflexivity|].
  assert (E : se_setup (fst (read_name k n s)) = se_setup s).
  { unfold read_name. destruct (get_variable _ _) as [v|]; [|reflexivity].
    assert (B : se_setup (fst (before_read v s)) = se_setup s).
    { unfold before_read. destruct (sv_local v) as [l|]; [|reflexivity]. unfold load. destruct (memberb _ _); [reflexivity|]. destruct (mapm _ _); reflexivity. }
    unfold andthen. destruct (snd (before_read v s)); [|exact B..]. now rewrite read_entries_setup. }
  unfold andthen. destruct (snd (read_name k n s)); [|exact E..]. now rewrite IH.
Qed.
End Lengths.

Section P.
Context {A : Type} (zero junk : A).
Implicit Types (m : member A) (y : player A) (ys : list (player A)) (s : ystate A) (f : SessionModel.session A).
Variable D : design.
Hypothesis wk : workable D.
Notation sound := (@StackProofs.sound A junk).
Notation B := (d_base D).
Notation P := (plan_mix D).
Notation able := (able junk D).
Notation troupe := (troupe junk D).
Notation pcalm := (pcalm junk D).

(** ** Lists of processes *)
Lemma calm_all ys : Forall able ys -> Forall2 pcalm ys ys.
Proof. intros F. induction F; constructor; auto. now apply pcalm_refl. Qed.
Lemma calm_all_trans a : forall b c, Forall2 pcalm a b -> Forall2 pcalm b c -> Forall2 pcalm a c.
Proof. induction a as [|x a IH]; intros b c H K; inversion H; subst; inversion K; subst; constructor; [eapply pcalm_trans; eassumption|eauto]. Qed.
Lemma upd_calm ys i y y' : Forall able ys -> nth_error ys i = Some y -> pcalm y y' -> Forall2 pcalm ys (upd ys i y').
Proof.
  intros F. revert i. induction F as [|x ys Hx F IH]; intros [|i] N T; cbn in N; try discriminate; cbn [upd].
  - injection N as ->. constructor; [exact T|now apply calm_all].
  - constructor; [now apply pcalm_refl|now apply IH].
Qed.
Lemma calm_nth ys ys' i y' : Forall2 pcalm ys ys' -> nth_error ys' i = Some y' -> exists y, nth_error ys i = Some y /\ pcalm y y'.
Proof. intros F. revert i. induction F as [|a b l l' T F IH]; intros [|i] N; cbn in N; try discriminate; [injection N as <-; exists a; auto|now apply IH]. Qed.

(** ** Values from the file *)
Definition here (vs : list svar) (p : option string) (n : string) : bool :=
  match where_of vs n, p with None, None => true | Some a, Some b => String.eqb b a | _, _ => false end.
Lemma put_slot vs y n v p m : slot y p = Some m -> slot (put_at vs y n v) p = Some (if here vs p n then put_values m n v else m).
Proof.
  intros E. unfold put_at. destruct (slot y (where_of vs n)) as [m0|] eqn:E0.
  - rewrite slot_alter. fold (here vs p n). destruct (here vs p n) eqn:H; [|exact E]. unfold here in H. destruct (where_of vs n) as [a|], p as [b|]; try discriminate H.
    + apply String.eqb_eq in H. subst b. congruence.
    + congruence.
  - destruct (here vs p n) eqn:H; [|exact E]. unfold here in H. destruct (where_of vs n) as [a|], p as [b|]; try discriminate H; [|discriminate E0]. apply String.eqb_eq in H. subst b. congruence.
Qed.
Lemma fetch_slot vs i mem names p : forall y m, slot y p = Some m -> slot (fetch_player vs i mem names y) p = Some (fetch i mem (filter (here vs p) names) m).
Proof.
  induction names as [|n names IH]; intros y m E; [exact E|]. change (fetch_player vs i mem (n :: names) y) with (fetch_player vs i mem names (put_at vs y n (nth i (mem n 0) []))).
  rewrite (IH _ _ (put_slot vs y n _ p m E)). cbn [filter]. destruct (here vs p n); reflexivity.
Qed.
Lemma fetch_calm i mem names : forall m, sound m -> sound (fetch i mem names m) /\ calm m (fetch i mem names m).
Proof.
  induction names as [|n names IH]; intros m So; [split; [exact So|apply calm_refl]|]. change (fetch i mem (n :: names) m) with (fetch i mem names (put_values m n (nth i (mem n 0) []))).
  destruct (put_calm junk m n (nth i (mem n 0) []) So) as (S1 & C1). destruct (IH _ S1) as (S2 & C2). split; [exact S2|exact (calm_trans _ _ _ C1 C2)].
Qed.
Lemma fetch_player_calm vs i mem names y : able y -> pcalm y (fetch_player vs i mem names y).
Proof.
  intros Ab. split; [|split].
  - pose proof (fetch_slot vs i mem names None y (y_base y) eq_refl) as E. cbn [slot] in E. injection E as ->. apply fetch_calm, Ab.
  - pose proof (fetch_slot vs i mem names None y (y_base y) eq_refl) as E. cbn [slot] in E. injection E as ->. apply fetch_calm, Ab.
  - intros t m It E. pose proof (fetch_slot vs i mem names (Some (o_name t)) y m E) as E'. cbn [slot] in E'. eexists. split; [exact E'|]. destruct (fetch_calm i mem (filter (here vs (Some (o_name t))) names) m (able_sound junk D y t m Ab It E)). auto.
Qed.
Lemma fetch_all_calm vs mem names ys : forall i, Forall able ys -> Forall2 pcalm ys (fetch_players vs i mem names ys).
Proof. induction ys as [|y ys IH]; intros i F; cbn [fetch_players]; [constructor|]. inversion F; subst. constructor; [now apply fetch_player_calm|now apply IH]. Qed.
Lemma fetch_players_nth vs mem names ys : forall i j, nth_error (fetch_players vs i mem names ys) j = option_map (fetch_player vs (i + j) mem names) (nth_error ys j).
Proof.
  induction ys as [|y ys IH]; intros i [|j]; cbn [fetch_players nth_error]; try reflexivity; [now rewrite Nat.add_0_r|]. rewrite IH. now rewrite Nat.add_succ_comm.
Qed.

(** ** What holds in between calls *)
Definition bound_mix f ys : Prop := exists ys0, troupe ys0 /\ Forall2 pcalm ys0 ys /\ su_parts (se_setup f) = map (player_part (vars_of f)) ys0 /\
  (forall p q, In (p, q) (holdings D) -> where_of (vars_of f) (i_name q) = p) /\
  (forall v l, In v (vars_of f) -> sv_local v = Some l -> In l (map o_name (d_lots D))).
Definition tied_mix s : Prop := troupe (z_players s) /\
  match z_file s with Some f => z_open s = true -> bound_mix f (z_players s) | None => z_open s = false end.
Lemma bound_calm f f' ys ys' : bound_mix f ys -> Forall2 pcalm ys ys' -> se_setup f' = se_setup f -> bound_mix f' ys'.
Proof.
  intros (ys0 & T & F & E & W & L) F' Es. exists ys0. split; [exact T|]. split; [now apply (calm_all_trans _ ys)|]. unfold vars_of. rewrite Es. auto.
Qed.
Lemma bound_fit f ys : bound_mix f ys -> sized P (se_setup f) (memory_mix (vars_of f) ys).
Proof. intros (ys0 & T & F & E & W & _). now apply (memory_fit junk D wk ys0). Qed.
Lemma bound_full f ys : bound_mix f ys -> ranked (with_mem f (memory_mix (vars_of f) ys)).
Proof. intros (ys0 & T & F & E & _) n h. cbn [with_mem se_mem se_setup]. unfold memory_mix. rewrite E, !map_length. symmetry. clear - F. induction F; cbn; congruence. Qed.
Lemma troupe_able ys : troupe ys -> Forall able ys.
Proof. intros (_ & F & _). exact F. Qed.

(** Files are made and opened. *)
Lemma start_mix md ys gnames ls hf (f : ncfile A) : troupe ys -> all_names B gnames -> all_local_names D ls ->
  exists u (s' : SessionModel.session A), setup_mix md ys gnames ls = Ok u /\ fits P u /\ sized P u (memory_mix (su_vars u) ys) /\
  start md u (memory_mix (su_vars u) ys) hf f = Ok s' /\ bound_mix s' ys /\ se_nb s' = recs f /\ se_mode s' = md.
Proof.
  intros T AG AL. destruct (setup_mix_ok junk D wk md ys gnames ls T AG AL) as (u & Eu & F & Ep & Wh & LL). exists u.
  assert (Sz : sized P u (memory_mix (su_vars u) ys)) by (apply (memory_fit junk D wk ys); auto; now apply calm_all, troupe_able).
  assert (SO : exists s' : SessionModel.session A, start md u (memory_mix (su_vars u) ys) hf f = Ok s').
  { destruct md.
    - destruct (create_inv P u F (memory_mix (su_vars u) ys) hf f Sz) as (pos & s' & E & _). eauto.
    - unfold start. destruct (all_blank (A := A) P u F Appending (su_colls u) ltac:(discriminate)) as (g & -> & _). cbn [bind]. eauto.
    - unfold start. destruct (all_blank (A := A) P u F Reading (su_colls u) ltac:(discriminate)) as (g & -> & _). cbn [bind]. eauto. }
  destruct SO as (s' & E). exists s'. split; [exact Eu|]. split; [exact F|]. split; [exact Sz|]. split; [exact E|].
  unfold start in E. apply bind_ok in E. destruct E as (g & _ & E). apply Ok_inj in E. subst s'. cbn [se_nb se_mode se_setup]. split; [|auto].
  exists ys. split; [exact T|]. split; [now apply calm_all, troupe_able|]. unfold vars_of. cbn [se_setup]. auto.
Qed.
Lemma named_mix names : incl names (field_names D) -> named P names.
Proof.
  intros Inc n Hn. apply Inc in Hn. unfold field_names in Hn. apply in_map_iff in Hn. destruct Hn as (h & <- & Ih). exists (quantity_at h). split; [now apply in_map|reflexivity].
Qed.
Lemma positioned_mix known names : pixels_known D known names -> positioned P known names.
Proof. intros H qq l Iqq Hn El. cbn [plan_mix pl_quantities] in Iqq. apply in_map_iff in Iqq. destruct Iqq as ([p q] & <- & I). cbn [quantity_at q_local q_name fst snd] in *. subst p. now apply (H l q). Qed.
Lemma colls_mix names : colls_of P names = colls_in D names.
Proof.
  unfold colls_of, colls_in. cbn [plan_mix pl_quantities]. induction (holdings D) as [|[p q] l IH]; [reflexivity|]. cbn [map flat_map quantity_at q_local q_name fst snd]. now rewrite IH.
Qed.

Lemma step_tied_mix s known k : tied_mix s -> proper_mix zero junk D known s k -> tied_mix (fst (ystep zero junk s k)).
Proof.
  intros (T & Bd) Pr. pose proof (troupe_able _ T) as Ab. destruct k as [i p k|next|gnames ls c|append gnames ls| | |k names|k names]; cbn [ystep proper_mix] in *.
  - destruct (nth_error (z_players s) i) as [y|] eqn:N; [|split; assumption]. destruct (slot y p) as [m|] eqn:E; [|split; assumption].
    assert (Ay : able y) by (rewrite Forall_forall in Ab; exact (Ab _ (nth_error_In _ _ N))).
    assert (Pc : pcalm y (alter y p (fst (member_step zero junk m k)))).
    { apply (alter_calm junk D y p m); [exact Ay|exact E|]. intros Dp. destruct (slot_able junk D y p Ay Dp) as (m' & E' & So). rewrite E in E'. injection E' as <-. destruct (member_calm zero junk m k So Pr). auto. }
    destruct (member_step zero junk m k) as [m' r]. cbn [fst] in *. pose proof (upd_calm _ _ _ _ Ab N Pc) as U. split; cbn [z_players z_file z_open].
    + exact (pcalm_troupe junk D _ _ U T).
    + destruct (z_file s) as [f|]; [|exact Bd]. intros O. now apply (bound_calm f f (z_players s)); [apply Bd| |].
  - split; cbn [fst z_players z_file z_open]; [now apply (assembled_troupe zero)|]. destruct (z_file s); [discriminate|reflexivity].
  - destruct Pr as (AG & AL). unfold opening. destruct (start_mix Creating (z_players s) gnames ls (mk_ncfile 0 (fun _ _ => 0)) (mk_ncfile 0 c) T AG AL) as (u & s' & -> & _ & _ & E & Bs & _). cbn [bind]. rewrite E.
    cbn [MixModel.opened fst]. split; cbn [z_players z_file z_open]; auto.
  - destruct Pr as (AG & AL). destruct (z_file s) as [f|] eqn:Ef; [|split; cbn [fst]; [exact T|rewrite Ef; exact Bd]]. unfold opening.
    destruct (start_mix (if append then Appending else Reading) (z_players s) gnames ls (se_hfile f) (se_file f) T AG AL) as (u & s' & -> & _ & _ & E & Bs & _). cbn [bind]. rewrite E.
    cbn [MixModel.opened fst]. split; cbn [z_players z_file z_open]; auto.
  - split; cbn [fst z_players z_file z_open]; [exact T|]. destruct (z_file s); [discriminate|reflexivity].
  - unfold MixModel.on_file. destruct (z_file s) as [f|] eqn:Ef; [|split; cbn [fst]; [exact T|rewrite Ef; exact Bd]]. destruct (z_open s) eqn:Eo; [|split; cbn [fst]; [exact T|rewrite Ef, Eo; discriminate]].
    cbn [SessionModel.step fst]. split; cbn [z_players z_file z_open]; [exact T|]. intros _. eapply bound_calm; [exact (Bd eq_refl)|now apply calm_all|reflexivity].
  - unfold MixModel.on_file. destruct (z_file s) as [f|] eqn:Ef; [|split; cbn [fst]; [exact T|rewrite Ef; exact Bd]]. destruct (z_open s) eqn:Eo; [|split; cbn [fst]; [exact T|rewrite Ef, Eo; discriminate]].
    pose proof (write_setup k names (with_mem f (memory_mix (vars_of f) (z_players s)))) as WS. destruct (SessionModel.step _ (Write k names)) as [f' r]. cbn [fst] in *.
    split; cbn [z_players z_file z_open]; [exact T|]. intros _. eapply bound_calm; [exact (Bd eq_refl)|now apply calm_all|exact WS].
  - unfold MixModel.on_file. destruct (z_file s) as [f|] eqn:Ef; [|split; cbn [fst]; [exact T|rewrite Ef; exact Bd]]. destruct (z_open s) eqn:Eo; [|split; cbn [fst]; [exact T|rewrite Ef, Eo; discriminate]].
    pose proof (read_setup k names (with_mem f (memory_mix (vars_of f) (z_players s)))) as RS.
    destruct (SessionModel.step _ (Read k names)) as [f' r]. cbn [fst] in *. pose proof (fetch_all_calm (vars_of f') (se_mem f') names (z_players s) 0 Ab) as Fc.
    split; cbn [z_players z_file z_open]; [exact (pcalm_troupe junk D _ _ Fc T)|]. intros _. eapply bound_calm; [exact (Bd eq_refl)|exact Fc|exact RS].
Qed.
Lemma plays_tied K s known l s' known' : plays zero junk D K s known l s' known' -> tied_mix s -> tied_mix s'.
Proof. intros R. induction R; intros T; [exact T|]. apply IHR. now apply (step_tied_mix s known). Qed.

(** One call is a number of operations on the file, which learn as much. *)
Definition mirrors_mix (K : ystate A -> ycall A -> Prop) (K' : SessionModel.session A -> SessionModel.op A -> Prop) : Prop :=
  (forall f o, (forall k names, o <> Write k names) -> creates o = false -> K' f o) /\
  (forall s f k names, z_file s = Some f -> z_open s = true -> K s (YWrite k names) -> K' (with_mem f (memory_mix (vars_of f) (z_players s))) (Write k names)) /\
  (forall s f gnames ls c u mem hc c', K s (YCreate gnames ls c) -> K' f (Create u mem hc c')).
Lemma run_both (K' : SessionModel.session A -> SessionModel.op A -> Prop) f known o1 o2 f1 r1 f2 r2 : allowed P known f o1 -> K' f o1 -> SessionModel.step f o1 = (f1, r1) ->
  allowed P (learn P known f o1 r1) f1 o2 -> K' f1 o2 -> SessionModel.step f1 o2 = (f2, r2) -> SessionSpec.run P K' f known [o1; o2] f2 (learn P (learn P known f o1 r1) f1 o2 r2).
Proof. intros. econstructor; try eassumption. econstructor; try eassumption. constructor. Qed.
Lemma learn_write known f k names (r : res unit) s : z_file s = Some f -> z_open s = true -> snd (ystep zero junk s (YWrite k names)) = r ->
  learn P known (with_mem f (memory_mix (vars_of f) (z_players s))) (Write k names) r = learns zero junk D known s (YWrite k names).
Proof.
  intros Ef Eo Er. unfold learns, creating. rewrite Er, Ef, Eo. cbn [learn with_mem se_mode]. rewrite colls_mix. destruct r, (se_mode f); reflexivity.
Qed.
Lemma step_file_mix K K' s known k f : mirrors_mix K K' -> tied_mix s -> proper_mix zero junk D known s k -> K s k -> z_file s = Some f ->
  exists f' ops, z_file (fst (ystep zero junk s k)) = Some f' /\ SessionSpec.run P K' f known ops f' (learns zero junk D known s k).
Proof.
  intros (M1 & M2 & M3) (T & Bd) Pr Kk Ef. rewrite Ef in Bd. assert (R0 : exists f' ops, Some f = Some f' /\ SessionSpec.run P K' f known ops f' known) by (exists f, []; split; [reflexivity|constructor]).
  destruct k as [i p k|next|gnames ls c|append gnames ls| | |k names|k names].
  - cbn [ystep learns]. destruct (nth_error (z_players s) i) as [y|]; [|cbn [fst]; now rewrite Ef]. destruct (slot y p) as [m|]; [|cbn [fst]; now rewrite Ef]. destruct (member_step zero junk m k). cbn [fst z_file]. now rewrite Ef.
  - cbn [ystep learns fst z_file]. now rewrite Ef.
  - cbn [ystep learns proper_mix] in *. destruct Pr as (AG & AL). unfold opening. destruct (start_mix Creating (z_players s) gnames ls (mk_ncfile 0 (fun _ _ => 0)) (mk_ncfile 0 c) T AG AL) as (u & s' & -> & F & Sz & E & _). cbn [bind]. rewrite E. cbn [MixModel.opened fst z_file].
    exists s', [Create u (memory_mix (su_vars u) (z_players s)) (fun _ _ => 0) c]. split; [reflexivity|]. econstructor; [split; [exact F|exact Sz]|exact (M3 s f gnames ls c _ _ _ _ Kk)| |constructor].
    cbn [SessionModel.step]. rewrite E. reflexivity.
  - cbn [ystep learns proper_mix] in *. destruct Pr as (AG & AL). rewrite Ef. unfold opening. destruct (start_mix (if append then Appending else Reading) (z_players s) gnames ls (se_hfile f) (se_file f) T AG AL) as (u & s' & -> & F & Sz & E & _). cbn [bind]. rewrite E. cbn [MixModel.opened fst z_file].
    exists s', [Reopen append u (memory_mix (su_vars u) (z_players s))]. split; [reflexivity|]. econstructor; [split; [exact F|exact Sz]|apply M1; [discriminate|reflexivity]| |constructor].
    cbn [SessionModel.step]. rewrite E. reflexivity.
  - cbn [ystep learns fst z_file]. now rewrite Ef.
  - cbn [ystep learns]. unfold MixModel.on_file. rewrite Ef. destruct (z_open s) eqn:Eo; [|cbn [fst]; now rewrite Ef].
    destruct (SessionModel.step (with_mem f (memory_mix (vars_of f) (z_players s))) AppendFrame) as [f' r] eqn:E. cbn [fst z_file]. exists f'. eexists. split; [reflexivity|].
    apply (run_both K' f known (Assign (memory_mix (vars_of f) (z_players s))) AppendFrame (with_mem f (memory_mix (vars_of f) (z_players s))) (Ok tt) f' r (bound_fit f _ (Bd eq_refl))); [apply M1; [discriminate|reflexivity]|reflexivity|exact Logic.I|apply M1; [discriminate|reflexivity]|exact E].
  - destruct (z_open s) eqn:Eo.
    + destruct (SessionModel.step (with_mem f (memory_mix (vars_of f) (z_players s))) (Write k names)) as [f' r] eqn:E. exists f'. exists [Assign (memory_mix (vars_of f) (z_players s)); Write k names].
      assert (Es : ystep zero junk s (YWrite k names) = (mk_ystate (z_players s) (Some f') true, r)) by (cbn [ystep]; unfold MixModel.on_file; rewrite Ef, Eo, E; reflexivity).
      split; [rewrite Es; reflexivity|]. rewrite <- (learn_write known f k names r s Ef Eo) by (now rewrite Es).
      apply (run_both K' f known (Assign (memory_mix (vars_of f) (z_players s))) (Write k names) (with_mem f (memory_mix (vars_of f) (z_players s))) (Ok tt) f' r (bound_fit f _ (Bd eq_refl))); [apply M1; [discriminate|reflexivity]|reflexivity| |now apply M2|exact E].
      destruct Pr as (Inc & Pk). split; [now apply named_mix|]. cbn [with_mem se_mode]. intros Md. apply positioned_mix, Pk. split; [exact Eo|]. exists f. auto.
    + assert (Es : ystep zero junk s (YWrite k names) = (s, Err FileIOError)) by (cbn [ystep]; unfold MixModel.on_file; rewrite Ef, Eo; reflexivity).
      unfold learns. rewrite Es. cbn [fst snd is_ok]. rewrite andb_false_r, Ef. exact R0.
  - cbn [ystep learns]. unfold MixModel.on_file. rewrite Ef. destruct (z_open s) eqn:Eo; [|cbn [fst]; now rewrite Ef].
    destruct (SessionModel.step (with_mem f (memory_mix (vars_of f) (z_players s))) (Read k names)) as [f' r] eqn:E. cbn [fst z_file]. exists f'. eexists. split; [reflexivity|]. destruct Pr as (Inc & Pk).
    assert (Al : allowed P known (with_mem f (memory_mix (vars_of f) (z_players s))) (Read k names)) by (split; [now apply named_mix|now apply positioned_mix]).
    apply (run_both K' f known (Assign (memory_mix (vars_of f) (z_players s))) (Read k names) (with_mem f (memory_mix (vars_of f) (z_players s))) (Ok tt) f' r (bound_fit f _ (Bd eq_refl))); [apply M1; [discriminate|reflexivity]|reflexivity|exact Al|apply M1; [discriminate|reflexivity]|exact E].
Qed.
Lemma run_follows (K' : SessionModel.session A -> SessionModel.op A -> Prop) f known l1 f1 known1 l2 f2 known2 : SessionSpec.run P K' f known l1 f1 known1 -> SessionSpec.run P K' f1 known1 l2 f2 known2 -> SessionSpec.run (A := A) P K' f known (l1 ++ l2) f2 known2.
Proof. intros R1 R2. induction R1; [exact R2|]. cbn [app]. econstructor; eauto. Qed.
Lemma plays_file K K' s known l s' known' : mirrors_mix K K' -> plays zero junk D K s known l s' known' -> forall f, tied_mix s -> z_file s = Some f ->
  exists f' ops, z_file s' = Some f' /\ SessionSpec.run P K' f known ops f' known'.
Proof.
  intros M R. induction R as [s known|s known k l s' known' Pr Kk R IH]; intros f T Ef.
  - exists f, []. split; [exact Ef|constructor].
  - destruct (step_file_mix K K' s known k f M T Pr Kk Ef) as (f1 & ops1 & E1 & R1). destruct (IH f1 (step_tied_mix _ _ _ T Pr) E1) as (f2 & ops2 & E2 & R2).
    exists f2, (ops1 ++ ops2). split; [exact E2|]. exact (run_follows _ _ _ _ _ _ _ _ _ R1 R2).
Qed.
Lemma mirrors_any_mix : mirrors_mix any_ycall anything.
Proof. unfold mirrors_mix, anything. auto. Qed.
Lemma mirrors_leaves_mix name fr : mirrors_mix (leaves_mix name fr) (spares name fr).
Proof.
  split; [|split].
  - intros f o N C. destruct o; try exact Logic.I; [discriminate C|]. exfalso. now apply (N k names).
  - intros s f k names Ef _ H. cbn [leaves_mix spares] in *. unfold nb_frames in H. rewrite Ef in H. exact H.
  - intros s f gnames ls c u mem hc c' H. destruct H.
Qed.
(** The file of a program was created by it. *)
Lemma plays_created s known l s' known' f : plays zero junk D any_ycall s known l s' known' -> tied_mix s -> z_file s = None -> z_file s' = Some f ->
  exists (s0 : SessionModel.session A) known0 u mem hc c ops, SessionSpec.run P anything s0 known0 (Create u mem hc c :: ops) f known'.
Proof.
  intros R. induction R as [s known|s known k l s' known' Pr Kk R IH]; intros T E0 E; [congruence|]. pose proof (step_tied_mix s known k T Pr) as T1.
  destruct (z_file (fst (ystep zero junk s k))) as [f1|] eqn:E1; [|now apply IH].
  destruct k as [i p k|next|gnames ls c|append gnames ls| | |k names|k names]; cbn [ystep] in E1; try (unfold MixModel.on_file in E1; rewrite E0 in E1; cbn [fst] in E1; congruence).
  - destruct (nth_error (z_players s) i) as [y|]; [destruct (slot y p) as [m|]; [destruct (member_step zero junk m k)|]|]; cbn [fst z_file] in E1; congruence.
  - cbn [fst z_file] in E1. congruence.
  - destruct T as (T & _). cbn [proper_mix] in Pr. destruct Pr as (AG & AL). destruct (start_mix Creating (z_players s) gnames ls (mk_ncfile 0 (fun _ _ => 0)) (mk_ncfile 0 c) T AG AL) as (u & g & Eu & F & Sz & Es & _).
    assert (Ek : ystep zero junk s (YCreate gnames ls c) = (mk_ystate (z_players s) (Some g) true, Ok tt)) by (cbn [ystep]; unfold opening; rewrite Eu; cbn [bind]; rewrite Es; reflexivity).
    rewrite Ek in R, T1. cbn [fst learns] in R, T1.
    set (s0 := SessionModel.mk_session Reading u 0 [] [] (fun _ => []) (memory_mix (su_vars u) (z_players s)) (mk_ncfile 0 (fun _ _ => 0)) (mk_ncfile 0 c)).
    destruct (plays_file _ _ _ _ _ _ _ mirrors_any_mix R g T1 eq_refl) as (f' & ops & E' & R').
    rewrite E in E'. injection E' as <-. exists s0, [], u, (memory_mix (su_vars u) (z_players s)), (fun _ _ => 0), c, ops.
    econstructor; [split; [exact F|exact Sz]|exact Logic.I| |exact R']. cbn [SessionModel.step]. rewrite Es. reflexivity.
  - cbn [fst z_file] in E1. congruence.
Qed.
Lemma begin_tied_mix ys : assembled zero junk D ys -> tied_mix (mk_ystate ys None false).
Proof. intros T. split; [now apply (assembled_troupe zero)|reflexivity]. Qed.
End P.
