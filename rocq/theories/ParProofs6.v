(** Opening a file, and whole programs, by all processes. *)
From Coq Require Import String.
From Verif Require Import Base CIntModel GridModel GridSpec StridedModel LayoutModel LayoutSpec LayoutProofs CommModel FrameModel NetCDFModel NetCDFSpec.
From Verif Require Import SessionModel SessionSpec SessionProofs SessionProofs2 SessionProofs3 SessionProofs4 SessionProofs5 ParModel ParSpec ParProofs ParProofs2 ParProofs3 ParProofs4 ParProofs5.
Local Open Scope Z_scope.
Local Open Scope list_scope.

Section Open.
Context {A : Type}.
Notation session := (session A).
Notation world := (world A).
Notation rank := (rank A).
Notation prog := (prog A).
Notation config := (config A).
Implicit Types (s : session) (w : world) (r : rank) (ranks : list rank).

(** *** Registration *)
Lemma hidden_fields_at {B} counts (ws : list (process B)) : forall k hs, hidden_fields counts k ws = Ok hs ->
  length hs = length ws /\ forall i x, nth_error ws i = Some x -> hidden_field counts (k + i) (l_npix (nf_lay (pr_sub x))) (pr_ids x) = Ok (nth i hs []).
Proof.
  induction ws as [|x ws IH]; intros k hs E; cbn [hidden_fields] in E.
  - apply Ok_inj in E. subst hs. split; [reflexivity|]. intros [|i] x H; discriminate.
  - destruct (hidden_field counts k (l_npix (nf_lay (pr_sub x))) (pr_ids x)) as [h|e|] eqn:E1; cbn [bind] in E; try discriminate.
    destruct (hidden_fields counts (S k) ws) as [hs1|e|] eqn:E2; cbn [bind] in E; try discriminate. apply Ok_inj in E. subst hs.
    destruct (IH _ _ E2) as [L H]. split; [cbn [length]; now rewrite L|]. intros [|i] y Ey; cbn [nth_error nth] in *.
    + injection Ey as <-. now rewrite Nat.add_0_r.
    + specialize (H i y Ey). now rewrite Nat.add_succ_r.
Qed.

Section Registration.
Variables (m : smode) (u : setup) (nb : Z) (mem : string -> Z -> list (list A)) (hf : ncfile Z) (f : ncfile A).
Hypothesis NEU : su_parts u <> [].
Definition fresh (g : string -> list (list Z)) : session := mk_session m u nb [] [] g mem hf f.

Lemma agrees_pos g l h w ranks (hs : rank -> list Z) : agrees (fresh g) w ranks ->
  (forall i r, nth_error ranks i = Some r -> hs r = nth i h []) -> agrees (fresh (set_at l h g)) w (map (fun r => add_pos l (hs r) r) ranks).
Proof.
  intros (A1 & A2 & A3 & A4) H. split; [exact A1|]. split; [exact A2|]. split; [rewrite map_length; exact A3|]. intros i r' E. rewrite nth_error_map in E.
  destruct (nth_error ranks i) as [r|] eqn:Er; cbn [option_map] in E; [|discriminate]. injection E as <-. destruct (A4 i r Er) as (B1 & B2 & B3 & B4 & B5 & B6 & B7 & B8 & B9). unfold add_pos. cbn [r_id r_mode r_setup r_nb r_read r_written r_pos r_mem r_indep].
  split; [exact B1|]. split; [exact B2|]. split; [exact B3|]. split; [exact B4|]. split; [exact B5|]. split; [exact B6|]. split; [exact B7|]. split; [|exact B9].
  intros n. unfold fresh, set_at. cbn [se_hidden]. destruct (String.eqb n l); [now apply H|exact (B8 n)].
Qed.

Lemma does_register l h g : @first_positions A m (su_parts u) l = Ok h -> does (register_coll l) (fresh g) (fresh (set_at l h g)) (Ok tt).
Proof.
  intros FP. unfold first_positions in FP. assert (CM : m = Creating \/ m <> Creating) by (destruct m; auto; right; discriminate). destruct CM as [CM|CM].
  - assert (HF : hidden_fields (counts_of (map (@in_coll A l) (su_parts u))) 0 (map (in_coll l) (su_parts u)) = Ok h) by (destruct m; try discriminate; exact FP). clear FP.
    destruct (hidden_fields_at _ _ _ _ HF) as [_ HH]. intros K Q HK w ranks AG.
    assert (NE : ranks <> []) by (apply (agrees_some _ _ _ AG); exact NEU).
    set (cs := counts_of (map (@in_coll A l) (su_parts u))) in *. set (arg := fun r => Z.of_nat (length (pt_ids (own_part r) l))).
    assert (EC : map arg ranks = cs).
    { apply list_at. intros i. unfold cs, counts_of. rewrite map_map, !nth_error_map. destruct (nth_error ranks i) as [r|] eqn:Er.
      - destruct (agrees_rank _ _ _ _ _ AG Er) as (p & Ep & EO). cbn [fresh se_setup] in Ep. rewrite Ep. cbn [option_map]. unfold arg. rewrite EO. reflexivity.
      - cbn [option_map]. destruct (nth_error (su_parts u) i) as [p|] eqn:Ep; [|reflexivity]. destruct AG as (_ & _ & L & _). cbn [fresh se_setup] in L.
        destruct (at_length _ ranks i p (eq_sym L) Ep) as [r Er']. congruence. }
    set (body := fun r (counts : list Z) => match hidden_field counts (r_id r) (l_npix (nf_lay (pt_sub (own_part r)))) (pt_ids (own_part r) l) with
                  | Ok h => K (add_pos l h r) (Ok tt) | e => K r (failed e) end).
    rewrite (map_ext_in _ (fun r => Sync CScan (arg r) (body r))).
    2:{ intros r Ir. destruct (agrees_in _ _ _ _ AG Ir) as (E & _). unfold register_coll. rewrite E. cbn [fresh se_mode]. rewrite CM. reflexivity. }
    apply always_sync; [exact NE|]. rewrite EC. set (hs := fun r => nth (r_id r) h []).
    rewrite (map_ext_in _ (fun r => K (add_pos l (hs r) r) (Ok tt))).
    2:{ intros r Ir. apply In_nth_error in Ir. destruct Ir as [i Er]. destruct (agrees_rank _ _ _ _ _ AG Er) as (p & Ep & EO). cbn [fresh se_setup] in Ep.
        destruct AG as (_ & _ & _ & A4). destruct (A4 i r Er) as (B1 & _). specialize (HH i (in_coll l p) ltac:(now rewrite nth_error_map, Ep)). cbn [Nat.add in_coll pr_sub pr_ids] in HH.
        unfold body, hs. rewrite EO, B1, HH. reflexivity. }
    rewrite <- (map_map (fun r => add_pos l (hs r) r) (fun r => K r (Ok tt))). apply HK. apply agrees_pos; [exact AG|]. intros i r Er. destruct AG as (_ & _ & _ & A4). destruct (A4 i r Er) as (B1 & _). unfold hs. now rewrite B1.
  - assert (HF : h = map (fun p => repeat (-1) (Z.to_nat (l_npix (nf_lay (pt_sub p))))) (su_parts u)) by (destruct m; [contradiction| |]; apply Ok_inj in FP; now subst h). clear FP.
    apply (does_update _ _ _ (fun r => add_pos l (repeat (-1) (Z.to_nat (l_npix (nf_lay (pt_sub (own_part r)))))) r)). intros w ranks AG. split.
    + intros r Ir K. destruct (agrees_in _ _ _ _ AG Ir) as (E & _). unfold register_coll. rewrite E. cbn [fresh se_mode]. destruct m; [contradiction|reflexivity|reflexivity].
    + apply (agrees_pos g l h w ranks (fun r => repeat (-1) (Z.to_nat (l_npix (nf_lay (pt_sub (own_part r))))))); [exact AG|]. intros i r Er. destruct (agrees_rank _ _ _ _ _ AG Er) as (p & Ep & ->). cbn [fresh se_setup] in Ep.
      rewrite HF. symmetry. apply nth_some. now rewrite nth_error_map, Ep.
Qed.

Lemma agrees_hidden g g' w ranks : (forall l, g l = g' l) -> agrees (fresh g) w ranks -> agrees (fresh g') w ranks.
Proof.
  intros E (A1 & A2 & A3 & A4). split; [exact A1|]. split; [exact A2|]. split; [exact A3|]. intros i r Er. destruct (A4 i r Er) as (B1 & B2 & B3 & B4 & B5 & B6 & B7 & B8 & B9).
  split; [exact B1|]. split; [exact B2|]. split; [exact B3|]. split; [exact B4|]. split; [exact B5|]. split; [exact B6|]. split; [exact B7|]. split; [|exact B9].
  intros l. rewrite B8. cbn [fresh se_hidden]. now rewrite E.
Qed.
Lemma does_result (p : action A) s s1 s2 a : (forall w ranks, agrees s1 w ranks -> agrees s2 w ranks) -> does p s s1 a -> does p s s2 a.
Proof. intros H D K Q HK. apply D. intros w ranks AG. now apply HK, H. Qed.

Lemma does_all g ls : forall g0, (forall l, In l ls -> @first_positions A m (su_parts u) l = Ok (g l)) ->
  does (each_name register_coll ls) (fresh g0) (fresh (fun l => if memberb l ls then g l else g0 l)) (Ok tt).
Proof.
  induction ls as [|l ls IH]; intros g0 H; cbn [each_name].
  - apply (does_result _ _ (fresh g0)); [intros w ranks; now apply agrees_hidden|]. apply does_ret. reflexivity.
  - set (g1 := fun n => if memberb n ls then g n else set_at l (g l) g0 n).
    apply (does_result _ _ (fresh g1)).
    { intros w ranks. apply agrees_hidden. intros n. unfold g1, set_at. cbn [memberb existsb]. destruct (String.eqb_spec n l) as [->|NE].
      - cbn [orb]. now destruct (memberb l ls).
      - fold (memberb n ls). cbn [orb]. reflexivity. }
    apply (does_then (register_coll l) (each_name register_coll ls) (fresh g0) (fresh (set_at l (g l) g0), Ok tt) (fun _ => (fresh g1, Ok tt))); cbn [fst snd].
    + apply does_register. apply H. now left.
    + intros _. apply IH. intros n In_. apply H. now right.
Qed.
Lemma all_positions_at ls : forall g, @all_positions A m (su_parts u) ls = Ok g ->
  (forall l, In l ls -> @first_positions A m (su_parts u) l = Ok (g l)) /\ forall l, ~ In l ls -> g l = [].
Proof.
  induction ls as [|l ls IH]; intros g E; cbn [all_positions] in E.
  - apply Ok_inj in E. subst g. split; [intros l []|reflexivity].
  - destruct (first_positions m (su_parts u) l) as [h|e|] eqn:E1; cbn [bind] in E; try discriminate.
    destruct (all_positions m (su_parts u) ls) as [g1|e|] eqn:E2; cbn [bind] in E; try discriminate. apply Ok_inj in E. subst g. destruct (IH g1 eq_refl) as [H1 H2]. unfold set_at. split.
    + intros n In_. destruct (String.eqb_spec n l) as [->|NE]; [exact E1|]. destruct In_ as [->|In_]; [contradiction|now apply H1].
    + intros n NI. destruct (String.eqb_spec n l) as [->|NE]; [exfalso; apply NI; now left|]. apply H2. intros In_. apply NI. now right.
Qed.
Lemma does_registration g : @all_positions A m (su_parts u) (su_colls u) = Ok g ->
  does (pthen (each_name register_coll (su_colls u)) leave_define) (fresh (fun _ => [])) (fresh g) (Ok tt).
Proof.
  intros E. destruct (all_positions_at _ _ E) as [H1 H2].
  apply (does_then (each_name register_coll (su_colls u)) leave_define (fresh (fun _ => [])) (fresh g, Ok tt) (fun _ => (fresh g, Ok tt))); cbn [fst snd].
  - eapply does_result; [|apply (does_all g (su_colls u)); exact H1]. intros w ranks. apply agrees_hidden. intros l. destruct (memberb l (su_colls u)) eqn:M; [reflexivity|]. symmetry. apply H2. intros In_. apply memberb_in in In_. congruence.
  - intros _ K Q HK w ranks AG. unfold leave_define. apply (always_sync Q w CEnddef (fun _ => 0) (fun r _ => K r (Ok tt))); [apply (agrees_some _ _ _ AG); exact NEU|]. now apply HK.
Qed.
Lemma registration_waits ls : forall r (K : cont A), (forall r', waits (K r' (Ok tt))) -> waits (each_name register_coll ls r K).
Proof.
  induction ls as [|l ls IH]; intros r K H; cbn [each_name]; [apply H|]. unfold pthen, register_coll at 1. destruct (r_mode r); [exact I|now apply IH|now apply IH].
Qed.
End Registration.

(** *** Opening *)
Lemma resets (reset : world -> world) {R} (rs : list R) : proper_fun reset -> (forall w, same (reset (reset w)) (reset w)) -> rs <> [] ->
  forall w, same (effect (flat_map (fun _ => [reset]) rs) w) (reset w).
Proof.
  intros PF ID. destruct rs as [|r rs]; [contradiction|]. intros _. cbn [flat_map app]. intros w. unfold effect. cbn [fold_left]. clear r. revert w. induction rs as [|r rs IH]; intros w; cbn [flat_map app fold_left]; [apply same_refl|].
  eapply same_trans; [apply IH|]. apply ID.
Qed.
Lemma opening m u mem (reset : world -> world) g (K : cont A) (Q : config -> Prop) w ranks hf (f : ncfile A) :
  su_parts u <> [] -> all_positions (A := A) m (su_parts u) (su_colls u) = Ok g -> numbered ranks -> length ranks = length (su_parts u) ->
  proper_fun reset -> (forall w, same (reset (reset w)) (reset w)) -> same (mk_world hf f) (reset w) ->
  (forall w' ranks', agrees (mk_session m u (recs f) [] [] g mem hf f) w' ranks' -> always Q (w', map (fun r => K r (Ok tt)) ranks')) ->
  always Q (w, map (fun r => open_file m u mem reset r K) ranks).
Proof.
  intros NEU EP NU L PF ID SW HK. assert (NE : ranks <> []) by (intros ->; destruct (su_parts u); [contradiction|discriminate]).
  set (reg := fun r nb => pthen (each_name register_coll (su_colls u)) leave_define (new_rank (r_id r) m u mem nb) K).
  set (p2 := fun r => Sync (COpened m) 0 (fun _ => Act (fun w => (w, reg r (recs (w_file w)))))).
  apply (always_sync Q w (COpen m) (fun _ => 0) (fun r _ => Act (fun w => (reset w, p2 r)))); [exact NE|].
  apply (phase_ranks (fun _ => True) Q ranks (fun _ => [reset]) _ p2 w).
  - intros r _. split; [apply acts_one with (p := p2 r); [reflexivity|constructor]|]. split; [exact I|]. intros g0 [<-|[]]. auto.
  - clear. induction ranks as [|r ranks IH]; constructor; [|exact IH]. apply Forall_forall. intros y _ g0 g1 [<-|[]] [<-|[]] w. apply same_refl.
  - exact I.
  - intros w1 _ S1. assert (S2 : same (mk_world hf f) w1) by (eapply same_trans; [exact SW|]; apply same_sym; eapply same_trans; [exact S1|]; now apply resets).
    apply (always_sync Q w1 (COpened m) (fun _ => 0) (fun r _ => Act (fun w => (w, reg r (recs (w_file w)))))); [exact NE|].
    apply (read_phase Q ranks w1 (fun _ => 1%nat) _ (fun r => reg r (recs f))).
    + intros r _. split; [|apply registration_waits; intros r'; exact I]. apply acts_read. intros w2 S. destruct S2 as [_ [S2 _]], S as [_ [S _]]. cbn [w_file] in S2. now rewrite <- S, <- S2.
    + intros w2 S3. unfold reg. rewrite <- (map_map (fun r => new_rank (r_id r) m u mem (recs f)) (fun r => pthen (each_name register_coll (su_colls u)) leave_define r K)).
      apply (does_registration m u (recs f) mem hf f NEU g EP); [exact HK|]. destruct (same_trans _ _ _ S2 S3) as [S4 S5]. cbn [w_hfile w_file] in S4, S5.
      split; [exact S4|]. split; [exact S5|]. split; [rewrite map_length; exact L|]. intros i r' E. rewrite nth_error_map in E. destruct (nth_error ranks i) as [r|] eqn:Er; cbn [option_map] in E; [|discriminate]. injection E as <-.
      specialize (NU i r Er). unfold new_rank, fresh. cbn. rewrite NU. repeat (split; [reflexivity|]). split; [intros l; now destruct i|reflexivity].
Qed.

(** *** Programs *)
Variable P : plan.
Lemma agrees_numbered s w ranks : agrees s w ranks -> numbered ranks.
Proof. intros (_ & _ & _ & H) i r E. now destruct (H i r E). Qed.

Definition leads s ops s' := forall outs w ranks, agrees s w ranks -> always (finished s' (rev outs ++ outcomes s ops)) (w, map (program ops outs) ranks).
Lemma leads_cons s o s1 a ops s' outs (w : world) ranks : SessionModel.step s o = (s1, a) -> leads s1 ops s' ->
  (forall (K : cont A) Q, (forall w' ranks', agrees s1 w' ranks' -> always Q (w', map (fun r => K r a) ranks')) -> always Q (w, map (fun r => operation o r K) ranks)) ->
  always (finished s' (rev outs ++ outcomes s (o :: ops))) (w, map (program (o :: ops) outs) ranks).
Proof.
  intros E LD H. cbn [outcomes]. rewrite E. apply (H (fun r a => program ops (a :: outs) r)). intros w' ranks' AG.
  specialize (LD (a :: outs) w' ranks' AG). cbn [rev] in LD. rewrite <- app_assoc in LD. exact LD.
Qed.

Lemma create_opening s known u mem hc c s1 a n (K : cont A) Q w ranks : allowed P known s (Create u mem hc c) -> SessionModel.step s (Create u mem hc c) = (s1, a) ->
  length (su_parts u) = n -> numbered ranks -> length ranks = n ->
  (forall w' ranks', agrees s1 w' ranks' -> always Q (w', map (fun r => K r a) ranks')) -> always Q (w, map (fun r => operation (Create u mem hc c) r K) ranks).
Proof.
  intros [F SZ] E LN NU L HK. cbn [SessionModel.step] in E. destruct (create_inv P u F mem (mk_ncfile 0 hc) (mk_ncfile 0 c) SZ) as (pos & s0 & E1 & _). rewrite E1 in E. injection E as <- <-.
  unfold start in E1. destruct (all_positions Creating (su_parts u) (su_colls u)) as [g|e|] eqn:EP; cbn [bind] in E1; try discriminate. apply Ok_inj in E1. subst s0. cbn [operation].
  apply (opening Creating u mem _ g K Q w ranks (mk_ncfile 0 hc) (mk_ncfile 0 c)); [apply F|exact EP|exact NU|congruence| | |apply same_refl|exact HK].
  - intros w1 w2 _. apply same_refl.
  - intros w1. apply same_refl.
Qed.
Lemma reopen_opening pos s known append u mem s1 a n (K : cont A) Q w ranks : inv P pos s known -> allowed P known s (Reopen append u mem) -> SessionModel.step s (Reopen append u mem) = (s1, a) ->
  length (su_parts u) = n -> numbered ranks -> length ranks = n -> same_file (se_hfile s) (w_hfile w) -> same_file (se_file s) (w_file w) ->
  (forall w' ranks', agrees s1 w' ranks' -> always Q (w', map (fun r => K r a) ranks')) -> always Q (w, map (fun r => operation (Reopen append u mem) r K) ranks).
Proof.
  intros I [F SZ] E LN NU L S1 S2 HK. cbn [SessionModel.step] in E. set (m := if append then Appending else Reading) in *.
  destruct (reopen_inv P u F pos s known m mem I ltac:(unfold m; destruct append; discriminate) SZ) as (s0 & E1 & _). rewrite E1 in E. injection E as <- <-.
  unfold start in E1. destruct (all_positions m (su_parts u) (su_colls u)) as [g|e|] eqn:EP; cbn [bind] in E1; try discriminate. apply Ok_inj in E1. subst s0. cbn [operation]. fold m.
  assert (NE : ranks <> []) by (intros ->; destruct F as (_ & _ & _ & F & _); destruct (su_parts u); [contradiction|cbn in *; congruence]).
  apply (always_sync Q w CClose (fun _ => 0) (fun r _ => open_file m u mem (fun w => w) r K)); [exact NE|].
  apply (opening m u mem _ g K Q w ranks (se_hfile s) (se_file s)); [apply F|exact EP|exact NU|congruence| | |split; [exact S1|exact S2]|exact HK].
  - intros w1 w2 S. exact S.
  - intros w1. apply same_refl.
Qed.

Lemma step_parts s known o s1 a n : (exists pos, inv P pos s known) -> allowed P known s o -> proper P n s o -> SessionModel.step s o = (s1, a) -> length (su_parts (se_setup s)) = n -> length (su_parts (se_setup s1)) = n.
Proof.
  intros [pos I] AL PR E L. destruct o as [u mem hc c|append u mem| |mem|k names|k names]; cbn [SessionModel.step allowed proper] in *.
  - destruct AL as [F SZ]. destruct (create_inv P u F mem (mk_ncfile 0 hc) (mk_ncfile 0 c) SZ) as (pos' & s0 & E1 & _). rewrite E1 in E. injection E as <- _. unfold start in E1. destruct (all_positions _ _ _); cbn [bind] in E1; try discriminate. apply Ok_inj in E1. now subst s0.
  - destruct AL as [F SZ]. destruct (reopen_inv P u F pos s known (if append then Appending else Reading) mem I ltac:(destruct append; discriminate) SZ) as (s0 & E1 & _). rewrite E1 in E. injection E as <- _. unfold start in E1. destruct (all_positions _ _ _); cbn [bind] in E1; try discriminate. apply Ok_inj in E1. now subst s0.
  - injection E as <- _. exact L.
  - injection E as <- _. exact L.
  - destruct AL as [NM PO]. destruct (write_names_spec P pos k names s known I) as (s2 & r2 & E2 & _ & (_ & SR & _) & _).
    { intros n' In_. destruct (NM n' In_) as (q & Iq & Nq). exists q. split; [exact Iq|]. split; [exact Nq|]. intros EM l El. apply (PO EM q l Iq); [now rewrite Nq|exact El]. }
    rewrite E2 in E. injection E as <- _. congruence.
  - destruct AL as [NM PO]. destruct (read_names_spec P pos k names s known I) as (s2 & r2 & E2 & _ & (_ & SR & _) & _).
    { intros n' In_. destruct (NM n' In_) as (q & Iq & Nq). exists q. split; [exact Iq|]. split; [exact Nq|]. intros l El. apply (PO q l Iq); [now rewrite Nq|exact El]. }
    rewrite E2 in E. injection E as <- _. congruence.
Qed.

Lemma does_operation s known o s1 a n w ranks (K : cont A) Q : (exists pos, inv P pos s known) -> allowed P known s o -> proper P n s o -> SessionModel.step s o = (s1, a) -> length (su_parts (se_setup s)) = n ->
  agrees s w ranks -> (forall w' ranks', agrees s1 w' ranks' -> always Q (w', map (fun r => K r a) ranks')) -> always Q (w, map (fun r => operation o r K) ranks).
Proof.
  intros [pos I] AL PR E L AG HK. pose proof (agrees_numbered s w ranks AG) as NU. pose proof AG as (S1 & S2 & LR & A4). assert (LN : length ranks = n) by congruence.
  destruct o as [u mem hc c|append u mem| |mem|k names|k names].
  - now apply (create_opening s known u mem hc c s1 a n).
  - now apply (reopen_opening pos s known append u mem s1 a n).
  - cbn [SessionModel.step] in E. injection E as <- <-. cbn [operation]. rewrite (map_ext_in _ (fun r => K (set_nb (fst (fstep (se_nb s) Append)) r) (Ok tt))) by (intros r Ir; destruct (agrees_in _ _ _ _ AG Ir) as (_ & _ & -> & _); reflexivity).
    rewrite <- (map_map (set_nb (fst (fstep (se_nb s) Append))) (fun r => K r (Ok tt))). apply HK. split; [exact S1|]. split; [exact S2|]. split; [rewrite map_length; exact LR|]. intros i r' E. rewrite nth_error_map in E. destruct (nth_error ranks i) as [r|] eqn:Er; cbn [option_map] in E; [|discriminate]. injection E as <-.
    destruct (A4 i r Er) as (B1 & B2 & B3 & B4 & B5 & B6 & B7 & B8 & B9). unfold set_nb, with_nb. cbn. auto 9.
  - cbn [SessionModel.step] in E. injection E as <- <-. cbn [operation]. rewrite <- (map_map (fun r => set_mem (own_mem (r_id r) mem) r) (fun r => K r (Ok tt))). apply HK.
    split; [exact S1|]. split; [exact S2|]. split; [rewrite map_length; exact LR|]. intros i r' E. rewrite nth_error_map in E. destruct (nth_error ranks i) as [r|] eqn:Er; cbn [option_map] in E; [|discriminate]. injection E as <-.
    destruct (A4 i r Er) as (B1 & B2 & B3 & B4 & B5 & B6 & B7 & B8 & B9). unfold set_mem, with_mem, own_mem. cbn. rewrite B1. auto 9.
  - cbn [SessionModel.step operation] in *. pose proof (does_write P pos s known k names I AL PR) as D. rewrite E in D. cbn [fst snd] in D. now apply D.
  - cbn [SessionModel.step operation] in *. pose proof (does_read P pos s known k names I AL PR) as D. rewrite E in D. cbn [fst snd] in D. now apply D.
Qed.
Lemma step_keeps_inv s known o s1 a : (exists pos, inv P pos s known) -> allowed P known s o -> SessionModel.step s o = (s1, a) -> exists pos, inv P pos s1 (learn P known s o a).
Proof.
  intros I AL E. destruct (creates o) eqn:EC.
  - destruct o; try discriminate. now apply (create_step P s known _ _ _ _ s1 a AL).
  - destruct I as [pos I]. exists pos. now apply (step_inv P pos s known o s1 a).
Qed.
Lemma run_leads n s known ops s' known' : run P (proper P n) s known ops s' known' -> (exists pos, inv P pos s known) -> length (su_parts (se_setup s)) = n -> leads s ops s'.
Proof.
  induction 1 as [s known|s known o s1 r ops s2 known2 AL KO E R IH]; intros I L outs w ranks AG.
  - apply now. exists ranks. cbn [fst snd outcomes program]. split; [|exact AG]. now rewrite app_nil_r.
  - apply (leads_cons s o s1 r ops s2 outs w ranks E); [apply IH; [now apply (step_keeps_inv s known o)|now apply (step_parts s known o s1 r n)]|].
    intros K Q HK. now apply (does_operation s known o s1 r n w ranks K Q).
Qed.

Lemma created_parallel n s known u mem hc c ops s' known' w ranks : run P (proper P n) s known (Create u mem hc c :: ops) s' known' -> numbered ranks -> length ranks = n ->
  always (finished s' (outcomes s (Create u mem hc c :: ops))) (w, map (program (Create u mem hc c :: ops) []) ranks).
Proof.
  intros R NU L. inversion R as [|? ? ? s1 r ? ? ? AL KO E R']; subst. apply (leads_cons s _ s1 r ops s' [] w ranks E).
  - apply (run_leads (length ranks) s1 (learn P known s (Create u mem hc c) r) ops s' known' R'); [now apply (create_step P s known u mem hc c s1 r)|].
    cbn [SessionModel.step allowed proper] in *. destruct AL as [F SZ]. destruct (create_inv P u F mem (mk_ncfile 0 hc) (mk_ncfile 0 c) SZ) as (pos' & s0 & E1 & _). rewrite E1 in E. injection E as <- _. unfold start in E1. destruct (all_positions _ _ _); cbn [bind] in E1; try discriminate. apply Ok_inj in E1. now subst s0.
  - intros K Q HK. now apply (create_opening s known u mem hc c s1 r (length ranks) K Q w ranks).
Qed.
Lemma reopened_parallel n s0 known0 u0 mem0 hc0 c0 before s known append u mem ops s' known' (w : world) ranks :
  run P anything s0 known0 (Create u0 mem0 hc0 c0 :: before) s known ->
  run P (proper P n) s known (Reopen append u mem :: ops) s' known' -> numbered ranks -> length ranks = n ->
  same_file (se_hfile s) (w_hfile w) -> same_file (se_file s) (w_file w) ->
  always (finished s' (outcomes s (Reopen append u mem :: ops))) (w, map (program (Reopen append u mem :: ops) []) ranks).
Proof.
  intros R0 R NU L S1 S2. destruct (run_created P anything _ _ _ _ _ _ _ _ _ R0) as [pos I]. inversion R as [|? ? ? s1 r ? ? ? AL KO E R']; subst. apply (leads_cons s _ s1 r ops s' [] w ranks E).
  - apply (run_leads (length ranks) s1 (learn P known s (Reopen append u mem) r) ops s' known' R'); [apply (step_keeps_inv s known _ s1 r); [eauto|exact AL|exact E]|].
    cbn [SessionModel.step allowed proper] in *. destruct AL as [F SZ]. destruct (reopen_inv P u F pos s known (if append then Appending else Reading) mem I ltac:(destruct append; discriminate) SZ) as (s3 & E1 & _). rewrite E1 in E. injection E as <- _. unfold start in E1. destruct (all_positions _ _ _); cbn [bind] in E1; try discriminate. apply Ok_inj in E1. now subst s3.
  - intros K Q HK. now apply (reopen_opening pos s known append u mem s1 r (length ranks) K Q w ranks).
Qed.
End Open.
