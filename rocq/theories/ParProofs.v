(** Executions of parallel programs: any order of the steps between two
    collective calls gives the same. *)
From Coq Require Import String.
From Verif Require Import Base NetCDFModel SessionModel SessionSpec ParModel ParSpec.
Local Open Scope Z_scope.
Local Open Scope list_scope.

Lemma same_file_refl {B} (f : ncfile B) : same_file f f.
Proof. split; reflexivity. Qed.
Lemma same_file_sym {B} (f g : ncfile B) : same_file f g -> same_file g f.
Proof. intros [H1 H2]. split; [now symmetry|intros; now symmetry]. Qed.
Lemma same_file_trans {B} (f g h : ncfile B) : same_file f g -> same_file g h -> same_file f h.
Proof. intros [H1 H2] [G1 G2]. split; [congruence|]. intros. now rewrite H2. Qed.

Section Orders.
Context {A : Type}.
Notation world := (world A).
Notation prog := (prog A).
Implicit Types (w : world) (p : prog).

Definition same (w w' : world) : Prop := same_file (w_hfile w) (w_hfile w') /\ same_file (w_file w) (w_file w').
Lemma same_refl w : same w w.
Proof. split; apply same_file_refl. Qed.
Lemma same_sym w w' : same w w' -> same w' w.
Proof. intros [H1 H2]. split; now apply same_file_sym. Qed.
Lemma same_trans a b c : same a b -> same b c -> same a c.
Proof. intros [H1 H2] [G1 G2]. split; eapply same_file_trans; eassumption. Qed.

Lemma always_weaken (Q Q' : config A -> Prop) c : (forall c, Q c -> Q' c) -> always Q c -> always Q' c.
Proof. intros H. induction 1 as [c Hc|c E _ IH]; [apply now; auto|apply later; [exact E|exact IH]]. Qed.
Lemma always_trans (Q Q' : config A -> Prop) c : (forall c, Q c -> always Q' c) -> always Q c -> always Q' c.
Proof. intros H. induction 1 as [c Hc|c E _ IH]; [auto|apply later; [exact E|exact IH]]. Qed.

(** ** A collective call *)
Lemma calls_unique c (a b : list (Z * (list Z -> prog))) c' :
  map (fun x => Sync c (fst x) (snd x)) a = map (fun x => Sync c' (fst x) (snd x)) b -> a = b.
Proof.
  revert b. induction a as [|[z k] a IH]; intros [|[z' k'] b] E; try discriminate; [reflexivity|].
  cbn [map fst snd] in E. injection E as _ E1 E2 E3. subst. f_equal. now apply IH.
Qed.
Lemma always_sync {R} (Q : config A -> Prop) w c (arg : R -> Z) (k : R -> list Z -> prog) (rs : list R) : rs <> [] ->
  always Q (w, map (fun r => k r (map arg rs)) rs) -> always Q (w, map (fun r => Sync c (arg r) (k r)) rs).
Proof.
  intros NE H. set (calls := map (fun r => (arg r, k r)) rs).
  assert (E : map (fun r => Sync c (arg r) (k r)) rs = map (fun x => Sync c (fst x) (snd x)) calls) by (unfold calls; rewrite map_map; reflexivity).
  assert (EK : map (fun x : Z * (list Z -> prog) => snd x (map fst calls)) calls = map (fun r => k r (map arg rs)) rs).
  { unfold calls. rewrite !map_map. reflexivity. }
  assert (NC : calls <> []) by (unfold calls; destruct rs; [contradiction|discriminate]).
  rewrite E. apply later; [eexists; now apply step_sync|]. intros c' ST. remember (w, map (fun x => Sync c (fst x) (snd x)) calls) as c0 eqn:E0. destruct ST as [w0 before f after w' p F|w0 c1 calls1 N1].
  - exfalso. injection E0 as _ E0. assert (I : In (Act f) (map (fun x => Sync c (fst x) (snd x)) calls)) by (rewrite <- E0; apply in_or_app; right; now left).
    apply in_map_iff in I. destruct I as (x & I & _). discriminate.
  - injection E0 as -> E0. apply calls_unique in E0. subst calls1. now rewrite EK.
Qed.

(** ** Accesses between two collective calls *)

(** The process makes the accesses [gs], then it is at [fin]; [I] holds of the
    file. *)
Inductive acts (I : world -> Prop) : list (world -> world) -> prog -> prog -> Prop :=
| acts_none p : acts I [] p p
| acts_one f g gs p fin : (forall w, I w -> f w = (g w, p)) -> acts I gs p fin -> acts I (g :: gs) (Act f) fin.
Definition waits p : Prop := match p with Sync _ _ _ => True | _ => False end.
Definition effect (gs : list (world -> world)) w : world := fold_left (fun w g => g w) gs w.
Definition proper_fun (g : world -> world) : Prop := forall w w', same w w' -> same (g w) (g w').
Definition commute (g g' : world -> world) : Prop := forall w, same (g (g' w)) (g' (g w)).

Lemma effect_same gs : Forall proper_fun gs -> forall w w', same w w' -> same (effect gs w) (effect gs w').
Proof.
  unfold effect. induction 1 as [|g gs Hg _ IH]; intros w w' S; [exact S|]. cbn [fold_left]. apply IH. now apply Hg.
Qed.
Lemma effect_past g gs : Forall proper_fun gs -> proper_fun g -> Forall (commute g) gs -> forall w, same (effect gs (g w)) (g (effect gs w)).
Proof.
  unfold effect. intros H Pg. induction 1 as [|g1 gs C _ IH]; intros w; [apply same_refl|]. cbn [fold_left]. inversion H as [|? ? Pg1 Pgs]; subst.
  eapply same_trans; [apply (effect_same gs Pgs); apply same_sym, C|]. now apply IH.
Qed.
Lemma effect_app a b w : effect (a ++ b) w = effect b (effect a w).
Proof. apply fold_left_app. Qed.

(** All processes: what each still does, its program, and where it will wait. *)
Definition pending : Type := list (world -> world) * prog * prog.
Definition todo (x : pending) : list (world -> world) := fst (fst x).
Definition current (x : pending) : prog := snd (fst x).
Definition wait_at (x : pending) : prog := snd x.
Lemma pairs_update {B} (R : B -> B -> Prop) a x y b : (forall z, R z x -> R z y) -> (forall z, R x z -> R y z) ->
  ForallOrdPairs R (a ++ x :: b) -> ForallOrdPairs R (a ++ y :: b).
Proof.
  intros H1 H2. induction a as [|z a IH]; cbn [app]; intros H; inversion H as [|? ? HF HP]; subst.
  - constructor; [|exact HP]. rewrite Forall_forall in *. intros z I. apply H2. now apply HF.
  - constructor; [|now apply IH]. rewrite Forall_forall in *. intros t I. apply in_app_or in I. destruct I as [I|[<-|I]].
    + apply HF, in_or_app. now left.
    + apply H1, HF, in_or_app. right. now left.
    + apply HF, in_or_app. right. now right.
Qed.
Lemma todo_split (a : list pending) (x : pending) b : flat_map todo (a ++ x :: b) = flat_map todo a ++ todo x ++ flat_map todo b.
Proof. now rewrite flat_map_app. Qed.
Lemma map_split {B C} (f : B -> C) l : forall a x b, map f l = a ++ x :: b -> exists a' x' b', l = a' ++ x' :: b' /\ map f a' = a /\ f x' = x /\ map f b' = b.
Proof.
  induction l as [|y l IH]; intros [|z a] x b E; cbn in E; try discriminate.
  - injection E as E1 E2. exists [], y, l. auto.
  - injection E as E1 E2. destruct (IH a x b E2) as (a' & x' & b' & -> & <- & <- & <-). exists (y :: a'), x', b'. cbn. subst. auto.
Qed.

Lemma phase (I : world -> Prop) (Q : config A -> Prop) : forall n (ps : list pending) w,
  length (flat_map todo ps) = n ->
  (forall gs p fin, In (gs, p, fin) ps -> acts I gs p fin /\ waits fin /\ Forall proper_fun gs /\ forall g, In g gs -> forall w, I w -> I (g w)) ->
  ForallOrdPairs (fun x y => forall g g', In g (todo x) -> In g' (todo y) -> commute g g') ps ->
  I w ->
  (forall w', I w' -> same w' (effect (flat_map todo ps) w) -> always Q (w', map wait_at ps)) ->
  always Q (w, map current ps).
Proof.
  induction n as [|n IH]; intros ps w L H C Iw K.
  - assert (E : map current ps = map wait_at ps).
    { apply map_ext_in. intros [[gs p] fin] Ix. destruct (H gs p fin Ix) as [AC _]. assert (gs = []) as ->.
      { destruct gs as [|g gs]; [reflexivity|]. exfalso. apply length_zero_iff_nil in L. assert (In g (flat_map todo ps)) by (apply in_flat_map; exists (g :: gs, p, fin); split; [exact Ix|now left]). rewrite L in *. contradiction. }
      inversion AC; subst. reflexivity. }
    rewrite E. apply K; [exact Iw|]. apply length_zero_iff_nil in L. rewrite L. apply same_refl.
  - (* a process can move *)
    assert (S1 : forall a gs f fin b, ps = a ++ (gs, Act f, fin) :: b -> exists g gs' p, gs = g :: gs' /\ (forall w, I w -> f w = (g w, p)) /\ acts I gs' p fin).
    { intros a gs f fin b E. destruct (H gs (Act f) fin) as (AC & W & _); [rewrite E; apply in_or_app; right; now left|]. inversion AC; subst; [contradiction|]. eauto 6. }
    apply later.
    + assert (X : exists a g gs p fin b, ps = a ++ (g :: gs, p, fin) :: b).
      { clear - L. induction ps as [|[[gs p] fin] ps IH]; [discriminate|]. cbn [flat_map todo fst] in L. destruct gs as [|g gs].
        - destruct (IH L) as (a & g & gs & p' & fin' & b & ->). exists (([], p, fin) :: a), g, gs, p', fin', b. reflexivity.
        - exists [], g, gs, p, fin, ps. reflexivity. }
      destruct X as (a & g & gs & p & fin & b & E). destruct (H (g :: gs) p fin) as (AC & _); [rewrite E; apply in_or_app; right; now left|].
      inversion AC as [|f g0 gs0 p0 fin0 F AC']; subst. eexists. rewrite map_app. cbn [map current fst snd]. apply step_act. now apply F.
    + intros c' ST. remember (w, map current ps) as c0 eqn:E0. destruct ST as [w0 before f after w' p F|w0 c1 calls N1].
      * injection E0 as -> E0. symmetry in E0. apply map_split in E0. destruct E0 as (a & [[gs pf] fin] & b & E & <- & Ef & <-). cbn [current fst snd] in Ef. subst pf.
        destruct (S1 a gs f fin b E) as (g & gs' & p' & -> & F' & AC'). rewrite (F' w Iw) in F. injection F as <- <-.
        assert (Ix : In (g :: gs', Act f, fin) ps) by (rewrite E; apply in_or_app; right; now left). destruct (H _ _ _ Ix) as (_ & W & PF & PI).
        assert (EC : map current a ++ p' :: map current b = map current (a ++ (gs', p', fin) :: b)) by (rewrite map_app; reflexivity). rewrite EC. clear EC. apply IH.
        -- rewrite E, todo_split, !app_length in L. rewrite todo_split, !app_length. change (todo (g :: gs', Act f, fin)) with (g :: gs') in L. change (todo (gs', p', fin)) with gs'. cbn [length] in L. lia.
        -- intros gs0 p0 fin0 I0. apply in_app_or in I0. destruct I0 as [I0|[I0|I0]].
           ++ apply H. rewrite E. apply in_or_app. now left.
           ++ injection I0 as <- <- <-. split; [exact AC'|]. split; [exact W|]. split; [now inversion PF|]. intros g0 G0. apply PI. now right.
           ++ apply H. rewrite E. apply in_or_app. right. now right.
        -- rewrite E in C. revert C. apply pairs_update; cbn [todo fst]; intros z R g1 g2 G1 G2; apply R; try assumption; now right.
        -- now apply PI; [left|].
        -- intros w' Iw' Sw'. rewrite map_app. cbn [map]. change (wait_at (gs', p', fin)) with fin. assert (EM : map wait_at ps = map wait_at a ++ fin :: map wait_at b) by (rewrite E, map_app; reflexivity). rewrite <- EM. apply K; [exact Iw'|].
           eapply same_trans; [exact Sw'|]. rewrite E, !todo_split. change (todo (g :: gs', Act f, fin)) with (g :: gs'). change (todo (gs', p', fin)) with gs'. rewrite !effect_app. cbn [effect fold_left].
           change (fold_left (fun w g => g w) gs') with (effect gs').
           assert (PA : forall l, incl l ps -> Forall proper_fun (flat_map todo l)).
           { intros l IL. apply Forall_forall. intros g0 G0. apply in_flat_map in G0. destruct G0 as ([[gs0 p0] fin0] & I0 & G0). destruct (H _ _ _ (IL _ I0)) as (_ & _ & PF0 & _). rewrite Forall_forall in PF0. now apply PF0. }
           assert (PFg : proper_fun g) by now inversion PF. apply effect_same.
           { apply PA. intros x Ixx. rewrite E. apply in_or_app. right. now right. }
           apply effect_same; [now inversion PF|]. apply effect_past.
           { apply PA. intros x Ixx. rewrite E. apply in_or_app. now left. }
           { exact PFg. }
           apply Forall_forall. intros g0 G0. apply in_flat_map in G0. destruct G0 as (x & I0 & G0). rewrite E in C.
           assert (CX : forall g1 g2, In g1 (todo x) -> In g2 (g :: gs') -> commute g1 g2).
           { clear - C I0. induction a as [|y a IH]; [contradiction|]. cbn [app] in C. inversion C as [|? ? CF CP]; subst. destruct I0 as [->|I0]; [|now apply IH].
             rewrite Forall_forall in CF. intros g1 g2 G1 G2. apply (CF (g :: gs', Act f, fin)); [apply in_or_app; right; now left|exact G1|exact G2]. }
           intros w1. apply same_sym, CX; [exact G0|now left].
      * exfalso. injection E0 as -> E0. assert (X : exists g gs p fin, In (g :: gs, p, fin) ps).
        { clear - L. induction ps as [|[[gs p] fin] ps IH]; [discriminate|]. cbn [flat_map todo fst] in L. destruct gs as [|g gs].
          - destruct (IH L) as (g & gs & p' & fin' & I). exists g, gs, p', fin'. now right.
          - exists g, gs, p, fin. now left. }
        destruct X as (g & gs & p & fin & Ix). destruct (H _ _ _ Ix) as (AC & _). inversion AC; subst.
        assert (J : In (Act f) (map current ps)) by (apply in_map_iff; exists (g :: gs, Act f, fin); auto).
        rewrite <- E0 in J. apply in_map_iff in J. destruct J as (y & J & _). discriminate.
Qed.

(** The same for processes that run the same program. *)
Lemma phase_ranks {R} (I : world -> Prop) (Q : config A -> Prop) (rs : list R) (gs : R -> list (world -> world)) (p fin : R -> prog) w :
  (forall r, In r rs -> acts I (gs r) (p r) (fin r) /\ waits (fin r) /\ forall g, In g (gs r) -> proper_fun g /\ forall w, I w -> I (g w)) ->
  ForallOrdPairs (fun x y => forall g g', In g (gs x) -> In g' (gs y) -> commute g g') rs ->
  I w ->
  (forall w', I w' -> same w' (effect (flat_map gs rs) w) -> always Q (w', map fin rs)) ->
  always Q (w, map p rs).
Proof.
  intros H C Iw K. set (ps := map (fun r => (gs r, p r, fin r)) rs).
  assert (E1 : map p rs = map current ps) by (unfold ps; rewrite map_map; reflexivity).
  assert (E2 : map fin rs = map wait_at ps) by (unfold ps; rewrite map_map; reflexivity).
  assert (E3 : flat_map gs rs = flat_map todo ps) by (unfold ps; clear; induction rs as [|r rs IH]; [reflexivity|]; cbn [map flat_map todo fst]; now rewrite IH).
  rewrite E1. apply (phase I Q _ ps w eq_refl).
  - intros gs0 p0 fin0 I0. unfold ps in I0. apply in_map_iff in I0. destruct I0 as (r & E0 & Ir). injection E0 as <- <- <-. destruct (H r Ir) as (H1 & H2 & H3).
    split; [exact H1|]. split; [exact H2|]. split; [apply Forall_forall; intros g G; now apply H3|]. intros g G. now apply H3.
  - unfold ps. clear - C. induction C as [|r rs CF CP IH]; [constructor|]. cbn [map]. constructor; [|exact IH]. rewrite Forall_forall in *. intros x Ix. apply in_map_iff in Ix.
    destruct Ix as (r' & <- & Ir'). cbn [todo fst]. now apply CF.
  - exact Iw.
  - intros w' Iw' S. rewrite <- E2. apply K; [exact Iw'|]. now rewrite E3.
Qed.
End Orders.
