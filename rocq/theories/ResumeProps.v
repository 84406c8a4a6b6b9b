(** C147, C148: programs with state fields that are continued from a file. *)
From Coq Require Import String.
From Verif Require Import Base CIntModel GridModel GridSpec StridedModel UnitsModel LayoutModel LayoutSpec LayoutProofs FieldModel.
From Verif Require Import RegistryModel RegistrySpec StateModel StateSpec NumpyModel PyArrayModel PyArraySpec PyArrayProps.
From Verif Require Import FrameModel NetCDFModel NetCDFSpec NetCDFProofs4 NetCDFProofs8 SessionModel StackModel StackSpec StackProps.
From Verif Require Import ResumeModel ResumeSpec ResumeProofs4 ResumeProofs5 ResumeProofs6.
Local Open Scope Z_scope.
Local Open Scope list_scope.
Local Open Scope string_scope.

(** At any time, every place has exactly one value, and all arrays on it show that. *)
Theorem C147_values {A} (zero junk : A) D ps l s g h c b x : suitable D -> crew zero junk D ps ->
  executes zero junk D whatever (begin ps) l s -> place D g h c b x ->
  exists a, shown zero junk s g h c b x a /\ (forall a', shown zero junk s g h c b x a' -> a' = a) /\
  forall i v p, array_on s i v g h p -> has (r_m p) x -> forall a', StackSpec.shows (r_m p) v c b x a' <-> a' = a.
Proof.
  intros suit Cr R Pl. pose proof (runs_tied zero junk D suit _ _ _ _ R (begin_tied zero junk D ps Cr)) as (T & _).
  destruct (shown_once zero junk D s g h c b x T Pl) as (a & Sa & U). exists a. split; [exact Sa|]. split; [exact U|].
  intros i v p Ar Hx a'. rewrite (array_shown zero junk D s i v g h p c b x a' T Ar Hx Pl). split; [apply U|intros ->; exact Sa].
Qed.
Print Assumptions C147_values.

(** Files can be made and opened at any time, and frames added. *)
Theorem C147_created {A} (zero junk : A) D ps l s prefixes names c : suitable D -> crew zero junk D ps ->
  executes zero junk D whatever (begin ps) l s -> all_vars D prefixes names ->
  exists s', rstep zero junk s (QCreate prefixes names c) = (s', Ok tt) /\ r_procs s' = r_procs s /\ writeable s' /\ nb_frames s' = 0.
Proof. intros suit Cr R. apply create_ready; [exact suit|]. exact (runs_tied zero junk D suit _ _ _ _ R (begin_tied zero junk D ps Cr)). Qed.
Print Assumptions C147_created.
Theorem C147_opened {A} (zero junk : A) D ps l s append prefixes names : suitable D -> crew zero junk D ps ->
  executes zero junk D whatever (begin ps) l s -> r_file s <> None -> all_vars D prefixes names ->
  exists s', rstep zero junk s (QOpen append prefixes names) = (s', Ok tt) /\ r_procs s' = r_procs s /\ r_open s' = true /\ (append = true -> writeable s').
Proof. intros suit Cr R. apply open_ready; [exact suit|]. exact (runs_tied zero junk D suit _ _ _ _ R (begin_tied zero junk D ps Cr)). Qed.
Print Assumptions C147_opened.
Theorem C147_frames {A} (zero junk : A) D ps l s : suitable D -> crew zero junk D ps ->
  executes zero junk D whatever (begin ps) l s -> r_open s = true ->
  exists s', rstep zero junk s QAppendFrame = (s', Ok tt) /\ r_procs s' = r_procs s /\ r_open s' = true /\ nb_frames s' = nb_frames s + 1 /\ (writeable s -> writeable s').
Proof. intros suit Cr R. apply (append_ready zero junk D). exact (runs_tied zero junk D suit _ _ _ _ R (begin_tied zero junk D ps Cr)). Qed.
Print Assumptions C147_frames.

(** A field or state field was written.  Whatever was done before, and is done after it
    except for writing this frame of it again or making another file, the frame can be
    read; then all its states have the values they had when it was written. *)
Theorem C147_last_write {A} (zero junk : A) D ps l s1 g k names fr : suitable D -> crew zero junk D ps ->
  executes zero junk D whatever (begin ps) l s1 -> writeable s1 ->
  In g (ds_things D) -> In (g_name g) names -> incl names (map g_name (ds_things D)) -> accessed k (nb_frames s1) = Ok fr ->
  exists s2, rstep zero junk s1 (QWrite k names) = (s2, Ok tt) /\ r_procs s2 = r_procs s1 /\
  forall l' s3 k' names' kept_names, In (g_name g) kept_names -> executes zero junk D (preserves kept_names fr) s2 l' s3 ->
    accessed fr (nb_frames s3) = Ok fr /\
    (r_open s3 = true -> In (g_name g) names' -> incl names' (map g_name (ds_things D)) -> accessed k' (nb_frames s3) = Ok fr ->
     exists s4, rstep zero junk s3 (QRead k' names') = (s4, Ok tt) /\
     forall h c b x a, place D g h c b x -> (shown zero junk s1 g h c b x a <-> shown zero junk s4 g h c b x a)).
Proof. intros suit. now apply resume_last_write. Qed.
Print Assumptions C147_last_write.

(** If all state fields rotate, a program that is continued from the file computes what
    the program that wrote it would have computed. *)
Theorem C147_continues {A} (zero junk : A) D : suitable D -> rotating D -> continues_alike zero junk D.
Proof. intros suit rot. now apply resume_continues. Qed.
Print Assumptions C147_continues.
(** There is such a computation: programs can make any steps, *)
Theorem C147_possible {A} (zero junk : A) D ps l s acts : suitable D -> rotating D -> crew zero junk D ps ->
  executes zero junk D whatever (begin ps) l s -> Forall (feasible D) acts -> exists s', computes zero junk D s acts s'.
Proof. intros suit rot Cr R. apply computes_total; auto. exact (runs_tied zero junk D suit _ _ _ _ R (begin_tied zero junk D ps Cr)). Qed.
Print Assumptions C147_possible.
(** and in between take arrays, and write to the file. *)
Theorem C147_quiet {A} (zero junk : A) D ps l s k : suitable D -> crew zero junk D ps ->
  executes zero junk D whatever (begin ps) l s -> proper_call zero junk D k -> quiet k -> alike zero junk D s (fst (rstep zero junk s k)).
Proof. intros suit Cr R. apply quiet_alike; auto. exact (runs_tied zero junk D suit _ _ _ _ R (begin_tied zero junk D ps Cr)). Qed.
Print Assumptions C147_quiet.

(** ** Cases *)

(** A domain of 2 x 2 pixels, a field and a state field.  Two processes have a column
    each; or one process has all and stores its fields by rows. *)
Definition plan (mem : Z) : design := mk_design [2; 2] [mk_thing (mk_item "u" [2] 1 "pixel") None; mk_thing (mk_item "w" [1] 1 "pixel") (Some mem)].
Definition state_w (mem : Z) : thing := mk_thing (mk_item "w" [1] 1 "pixel") (Some mem).
Definition set_up (mem : Z) (nsd loc : list Z) : list (pcall Z) :=
  [RPy (PColl (ORegister "u" Real (inr [2]) "pixel" (unitless 0) false)); RRegister "w" Real mem 1 "pixel" (unitless 0) false;
   RPy (PColl (OInitGlobalOrder [2; 2] nsd loc Automatic))].
Definition proc0 (mem : Z) (order : storder) (nsd loc : list Z) : proc Z :=
  proc_run 0 7 (mk_proc (mk_member (PyArrayModel.mk_session (coll_of order) []) [] []) []) (set_up mem nsd loc).
Definition more : list (pcall Z) := [RArray "w" 0 SubPt].
Definition process (mem : Z) (order : storder) (nsd loc : list Z) : proc Z := proc_run 0 7 (proc0 mem order nsd loc) more.
Notation left_half mem := (process mem ColMajor [1; 2] [0; 0]).
Notation right_half mem := (process mem ColMajor [1; 2] [1; 0]).
Notation whole mem := (process mem RowMajor [2; 2] [0; 0]).
Definition one_of (order : storder) (nsd loc : list Z) : Prop :=
  (order = ColMajor /\ nsd = [1; 2] /\ loc = [0; 0]) \/ (order = ColMajor /\ nsd = [1; 2] /\ loc = [1; 0]) \/ (order = RowMajor /\ nsd = [2; 2] /\ loc = [0; 0]).


Lemma in_range_1 n a : 0 <= a < n -> in_shape [n] [a].
Proof. intros H. split; [reflexivity|]. intros [|i] Hi; [exact H|cbn in Hi; lia]. Qed.
Lemma in_range_2 n m a b : 0 <= a < n -> 0 <= b < m -> in_shape [n; m] [a; b].
Proof. intros H1 H2. split; [reflexivity|]. intros [|[|i]] Hi; [exact H1|exact H2|cbn in Hi; lia]. Qed.
Lemma plan_suitable mem : 1 <= mem -> suitable (plan mem).
Proof.
  intros Hm. split; [cbn; lia|]. split; [cbn; repeat constructor; cbn; intuition discriminate|].
  intros g [<-|[<-|[]]]; (split; [apply plain_clean; vm_compute; reflexivity|]); (split; [apply plain_clean; vm_compute; reflexivity|]);
    (split; [cbn; lia|]); (split; [reflexivity|]).
  - split; [discriminate|]. intros g' i [<-|[<-|[]]] St; [discriminate St|]. cbv [g_name g_item i_name sub_name]. cbn [String.append]. discriminate.
  - split; [cbn; intros m E; injection E as <-; exact Hm|]. intros g' i [<-|[<-|[]]] St; [discriminate St|]. cbv [g_name g_item i_name sub_name]. cbn [String.append]. discriminate.
Qed.
Lemma process_outfitted mem order nsd loc : mem = 1 \/ mem = 2 -> one_of order nsd loc -> outfitted 0 7 (plan mem) (process mem order nsd loc).
Proof.
  intros Hm Ho. assert (Hord : order = ColMajor \/ order = RowMajor) by (destruct Ho as [(-> & _)|[(-> & _)|(-> & _)]]; auto). split.
  - exists (set_up mem nsd loc), (proc0 mem order nsd loc), more. split.
    + exists order, [], (coll_of order). split; [exact Hord|]. split; [destruct Hord as [-> | ->]; reflexivity|]. split; [constructor|].
      split; [|reflexivity]. unfold set_up. repeat constructor; cbn; lia.
    + destruct Hm as [-> | ->]; destruct Ho as [(-> & -> & ->)|[(-> & -> & ->)|(-> & -> & ->)]]; (split; [vm_compute; reflexivity|]); (split; [vm_compute; reflexivity|]);
        (split; [|split; [repeat constructor|reflexivity]]); (split; [vm_compute; auto|]);
        (split; [|split; [vm_compute; reflexivity|vm_compute; split; discriminate]]); vm_compute c_pix; vm_compute c_pstr; vm_compute c_nbuf; apply small_embeds; lia.
  - destruct Hm as [-> | ->]; destruct Ho as [(-> & -> & ->)|[(-> & -> & ->)|(-> & -> & ->)]]; (split; [vm_compute; reflexivity|]); (split; [vm_compute; reflexivity|]); (split; [vm_compute; reflexivity|]);
      (split; [intros [|[|i]] Hi; [vm_compute; intuition discriminate..|cbn in Hi; lia]|]);
      intros g [<-|[<-|[]]]; cbn [g_mem].
    all: try (eexists; (split; [vm_compute; reflexivity|]); vm_compute; intuition discriminate).
    all: split; [eexists; split; vm_compute; reflexivity|].
    all: intros n Hn; vm_compute in Hn; repeat (destruct Hn as [<-|Hn]); try destruct Hn; eexists; (split; [vm_compute; reflexivity|]); vm_compute; intuition discriminate.
Qed.
Lemma process_box mem order nsd loc : mem = 1 \/ mem = 2 -> one_of order nsd loc ->
  box (r_m (process mem order nsd loc)) = nsd /\ m_loc (r_m (process mem order nsd loc)) = loc /\ length nsd = 2%nat.
Proof. intros [-> | ->] [(-> & -> & ->)|[(-> & -> & ->)|(-> & -> & ->)]]; vm_compute; auto. Qed.
Lemma has_length mem order nsd loc x : mem = 1 \/ mem = 2 -> one_of order nsd loc -> has (r_m (process mem order nsd loc)) x -> length x = 2%nat.
Proof. intros Hm Ho. unfold has. destruct (process_box mem order nsd loc Hm Ho) as (-> & -> & L). intros [H _]. congruence. Qed.
Lemma has_at mem order nsd loc x y : mem = 1 \/ mem = 2 -> one_of order nsd loc ->
  (has (r_m (process mem order nsd loc)) [x; y] <-> zn loc 0 <= x < zn loc 0 + zn nsd 0 /\ zn loc 1 <= y < zn loc 1 + zn nsd 1).
Proof.
  intros Hm Ho. unfold has. destruct (process_box mem order nsd loc Hm Ho) as (-> & -> & L). unfold in_box. rewrite L. split.
  - intros (_ & H). split; [exact (H 0%nat ltac:(lia))|exact (H 1%nat ltac:(lia))].
  - intros (H1 & H2). split; [reflexivity|]. intros [|[|i]] Hi; [exact H1|exact H2|lia].
Qed.
Lemma is_left : one_of ColMajor [1; 2] [0; 0]. Proof. left. auto. Qed.
Lemma is_right : one_of ColMajor [1; 2] [1; 0]. Proof. right. left. auto. Qed.
Lemma is_whole : one_of RowMajor [2; 2] [0; 0]. Proof. right. right. auto. Qed.
Lemma whole_crew mem : mem = 1 \/ mem = 2 -> crew 0 7 (plan mem) [whole mem].
Proof.
  intros Hm. split; [discriminate|]. split; [exact (Forall_cons _ (process_outfitted mem _ _ _ Hm is_whole) (Forall_nil _))|]. split; [apply FOP_cons; [apply Forall_nil|apply FOP_nil]|].
  intros c Hc. destruct (in_grid c Hc) as (x & y & -> & Hx & Hy). exists (whole mem). split; [exact (or_introl eq_refl)|].
  apply (proj2 (has_at mem _ _ _ x y Hm is_whole)). unfold zn. cbn [nth]. lia.
Qed.
Lemma halves_crew mem : mem = 1 \/ mem = 2 -> crew 0 7 (plan mem) [left_half mem; right_half mem].
Proof.
  intros Hm. split; [discriminate|].
  split; [exact (Forall_cons _ (process_outfitted mem _ _ _ Hm is_left) (Forall_cons _ (process_outfitted mem _ _ _ Hm is_right) (Forall_nil _)))|]. split.
  - apply FOP_cons; [|apply FOP_cons; [apply Forall_nil|apply FOP_nil]]. apply Forall_cons; [|apply Forall_nil].
    intros x Hl Hr. pose proof (has_length mem _ _ _ x Hm is_left Hl) as L. destruct x as [|x [|y [|]]]; try discriminate L.
    apply (has_at mem _ _ _ x y Hm is_left) in Hl. apply (has_at mem _ _ _ x y Hm is_right) in Hr. unfold zn in Hl, Hr. cbn [nth] in Hl, Hr. lia.
  - intros c Hc. destruct (in_grid c Hc) as (x & y & -> & Hx & Hy). destruct (Z.eq_dec x 0) as [E|Ne].
    + exists (left_half mem). split; [exact (or_introl eq_refl)|]. apply (proj2 (has_at mem _ _ _ x y Hm is_left)). unfold zn. cbn [nth]. lia.
    + exists (right_half mem). split; [exact (or_intror (or_introl eq_refl))|]. apply (proj2 (has_at mem _ _ _ x y Hm is_right)). unfold zn. cbn [nth]. lia.
Qed.
Definition play (s : rstate Z) (l : list (rcall Z)) : rstate Z := fold_left (fun s k => fst (rstep 0 7 s k)) l s.
Fixpoint each_call (D : design) (K : rstate Z -> rcall Z -> Prop) (s : rstate Z) (l : list (rcall Z)) : Prop :=
  match l with [] => True | k :: r => proper_call 0 7 D k /\ K s k /\ each_call D K (fst (rstep 0 7 s k)) r end.
Lemma runs_play D K l : forall s, each_call D K s l -> executes 0 7 D K s l (play s l).
Proof. induction l as [|k l IH]; intros s H; [constructor|]. destruct H as (H1 & H2 & H3). constructor; [exact H1|exact H2|]. exact (IH _ H3). Qed.
Lemma plan_vars mem : all_vars (plan mem) ["w"] ["u"].
Proof.
  split; [repeat constructor; auto|]. split; [repeat constructor; auto|]. split; [|split].
  - intros n. split.
    + intros [<-|[]]. exists (state_w mem). split; [right; left; reflexivity|]. split; reflexivity.
    + intros (g & [<-|[<-|[]]] & St & <-); [discriminate St|left; reflexivity].
  - intros g [<-|[<-|[]]] St; [left; reflexivity|discriminate St].
  - intros n [<-|[]]. left. eexists. split; [left; reflexivity|]. split; reflexivity.
Qed.
Lemma plan_names mem : incl ["w"; "u"] (map g_name (ds_things (plan mem))) /\ incl (map g_name (ds_things (plan mem))) ["w"; "u"].
Proof. split; intros n H; cbn in H |- *; tauto. Qed.

(** Two processes make a step of a computation with one old state and write the file;
    one process, which had made a step, reads it.  Both make another step. *)
Definition before_write : list (rcall Z) :=
  [QProc 0 (RPy (PPut 0 [0; 0; 0; 1] 5)); QProc 0 (RCycle "w"); QProc 1 (RCycle "w"); QProc 0 (RArray "w" 0 SubPt);
   QProc 0 (RPy (PPut 1 [0; 0; 0; 1] 6)); QCreate ["w"] ["u"] (fun _ _ => 9); QAppendFrame; QAppendFrame].
Definition after_write : list (rcall Z) :=
  [QProc 0 (RPy (PPut 1 [0; 0; 0; 1] 8)); QWrite 0 ["w"]; QClose; QRun [whole 1]; QOpen false ["w"] ["u"]; QProc 0 (RCycle "w")].
Notation w1 := (state_w 1).
Definition cycle_w (s : rstate Z) : rstate Z := fold_left (fun s i => fst (rstep 0 7 s (QProc i (RCycle "w")))) (seq 0 (length (r_procs s))) s.
Definition put_w (s : rstate Z) : rstate Z := fst (rstep 0 7 s (QProc 0 (RPy (PPut 0 [0; 0; 0; 1] 4)))).
Lemma two_steps s p w : nth_error (r_procs (cycle_w s)) 0 = Some p -> nth_error (p_views (m_py (r_m p))) 0 = Some w -> field_of p w1 0 = Ok (PyArrayModel.v_name w) -> v_unit w = SubPt ->
  m_loc (r_m p) = [0; 0] -> has (r_m p) [0; 1] -> computes 0 7 (plan 1) s [Cycle w1; Put w1 0 [0] 0 [0; 1] 4] (put_w (cycle_w s)).
Proof.
  intros N V F U L H. apply comp_cycle; [right; left; reflexivity|reflexivity|]. apply (comp_put 0 7 (plan 1) (cycle_w s) w1 0 [0] 0 [0; 1] 4 0%nat 0%nat p).
  - split; [right; left; reflexivity|]. split; [cbn; lia|]. split; [apply in_range_1; lia|]. split; [cbn; lia|]. apply in_range_2; lia.
  - split; [exact N|]. exists (PyArrayModel.v_name w), w. auto.
  - exact H.
  - rewrite L. apply comp_end.
Qed.
Lemma in_box_2 n1 n2 l1 l2 a b : l1 <= a < l1 + n1 -> l2 <= b < l2 + n2 -> in_box [n1; n2] [l1; l2] [a; b].
Proof. intros H1 H2. split; [reflexivity|]. intros [|[|i]] Hi; [exact H1|exact H2|cbn in Hi; lia]. Qed.
Ltac have := unfold has; vm_compute box; vm_compute m_loc; apply in_box_2; lia.
Ltac see i := exists i; eexists; split; [vm_compute; reflexivity|]; split; [have|]; eexists; eexists; split; [vm_compute; reflexivity|]; split; vm_compute; reflexivity.
Example C147_case :
  let s1 := play (begin [left_half 1; right_half 1]) before_write in
  let s2 := fst (rstep 0 7 s1 (QWrite 1 ["w"; "u"])) in
  let s3 := play s2 after_write in
  let s4 := fst (rstep 0 7 s3 (QRead (-1) ["w"; "u"])) in
  suitable (plan 1) /\ rotating (plan 1) /\ crew 0 7 (plan 1) [left_half 1; right_half 1] /\
  executes 0 7 (plan 1) whatever (begin [left_half 1; right_half 1]) before_write s1 /\ writeable s1 /\ accessed 1 (nb_frames s1) = Ok 1 /\
  executes 0 7 (plan 1) (preserves ["w"; "u"] 1) s2 after_write s3 /\ r_open s3 = true /\ accessed (-1) (nb_frames s3) = Ok 1 /\
  place (plan 1) w1 1 [0] 0 [0; 1] /\
  shown 0 7 s1 w1 0 [0] 0 [0; 1] 6 /\ shown 0 7 s1 w1 1 [0] 0 [0; 1] 5 /\ shown 0 7 s3 w1 0 [0] 0 [0; 1] 0 /\
  shown 0 7 s4 w1 0 [0] 0 [0; 1] 6 /\ shown 0 7 s4 w1 1 [0] 0 [0; 1] 5 /\
  (exists sa, computes 0 7 (plan 1) s1 [Cycle w1; Put w1 0 [0] 0 [0; 1] 4] sa /\ shown 0 7 sa w1 0 [0] 0 [0; 1] 4 /\ shown 0 7 sa w1 1 [0] 0 [0; 1] 6) /\
  (exists sb, computes 0 7 (plan 1) s4 [Cycle w1; Put w1 0 [0] 0 [0; 1] 4] sb /\ shown 0 7 sb w1 0 [0] 0 [0; 1] 4 /\ shown 0 7 sb w1 1 [0] 0 [0; 1] 6).
Proof.
  cbn zeta. assert (M1 : 1 = 1 \/ 1 = 2) by (left; reflexivity).
  assert (Pl : forall h, 0 <= h <= 1 -> place (plan 1) w1 h [0] 0 [0; 1]).
  { intros h Hh. split; [right; left; reflexivity|]. split; [exact Hh|]. split; [apply in_range_1; lia|]. split; [cbn; lia|]. apply in_range_2; lia. }
  split; [apply plan_suitable; lia|]. split; [intros g m [<-|[<-|[]]] E; [discriminate E|]; injection E as <-; exists 1; split; [lia|reflexivity]|].
  split; [apply halves_crew; exact M1|].
  split; [apply runs_play; unfold before_write; cbn [each_call proper_call orderly_call orderly]; repeat (split; [first [exact I|exact (plan_vars 1)]|split; [exact I|]]); exact I|].
  split; [split; [vm_compute; reflexivity|]; eexists; split; [vm_compute; reflexivity|vm_compute; discriminate]|].
  split; [vm_compute; reflexivity|]. split.
  { apply runs_play. unfold after_write. cbn [each_call proper_call orderly_call orderly preserves]. split; [exact I|]. split; [exact I|].
    split; [intros n [<-|[]]; right; left; reflexivity|]. split; [vm_compute; discriminate|].
    repeat (split; [first [exact I|exact (plan_vars 1)|apply whole_crew; exact M1]|split; [exact I|]]). exact I. }
  split; [vm_compute; reflexivity|]. split; [vm_compute; reflexivity|]. split; [apply Pl; lia|].
  repeat (split; [see 0%nat|]).
  split; [exists (put_w (cycle_w (play (begin [left_half 1; right_half 1]) before_write)))|
          exists (put_w (cycle_w (fst (rstep 0 7 (play (fst (rstep 0 7 (play (begin [left_half 1; right_half 1]) before_write) (QWrite 1 ["w"; "u"]))) after_write) (QRead (-1) ["w"; "u"])))))];
    (split; [eapply two_steps; [vm_compute; reflexivity|vm_compute; reflexivity|vm_compute; reflexivity|reflexivity|reflexivity|have]|split; see 0%nat]).
Qed.

(** With two old states, fields are not all reachable at a time (see C60).  A value that
    no array can show when the file is written comes up again in the program that wrote
    it, and not in the one that continues from the file. *)
Definition before_loss : list (rcall Z) :=
  [QProc 0 (RPy (PPut 0 [0; 0; 0; 1] 5)); QProc 0 (RCycle "w"); QCreate ["w"] ["u"] (fun _ _ => 9); QAppendFrame].
Definition after_loss : list (rcall Z) := [QClose; QRun [whole 2]; QOpen false ["w"] ["u"]].
Theorem C148_continues_refuted : exists D, suitable D /\ ~ continues_alike 0 7 D.
Proof.
  exists (plan 2). split; [apply plan_suitable; lia|]. intros H. assert (M2 : 2 = 1 \/ 2 = 2) by (right; reflexivity). destruct (plan_names 2) as (N1 & N2).
  destruct (H [whole 2] before_loss (play (begin [whole 2]) before_loss) 0 ["w"; "u"] 0) as (s2 & E2 & _ & H2); clear H.
  - apply whole_crew, M2.
  - apply runs_play; unfold before_loss; cbn [each_call proper_call orderly_call orderly]; repeat (split; [first [exact I|exact (plan_vars 2)]|split; [exact I|]]); exact I.
  - split; [vm_compute; reflexivity|]; eexists; split; [vm_compute; reflexivity|vm_compute; discriminate].
  - exact N1.
  - exact N2.
  - vm_compute. reflexivity.
  - assert (Es : s2 = fst (rstep 0 7 (play (begin [whole 2]) before_loss) (QWrite 0 ["w"; "u"]))) by now rewrite E2. clear E2. subst s2.
    set (s2 := fst (rstep 0 7 (play (begin [whole 2]) before_loss) (QWrite 0 ["w"; "u"]))) in *.
    assert (R : executes 0 7 (plan 2) (preserves ["w"; "u"] 0) s2 after_loss (play s2 after_loss)).
    { apply runs_play. unfold after_loss. cbn [each_call proper_call preserves]. repeat (split; [first [exact I|exact (plan_vars 2)|exact (whole_crew 2 M2)]|split; [exact I|]]). exact I. }
    destruct (H2 after_loss _ 0 ["w"; "u"] R) as (s4 & E4 & _ & H4); clear H2.
    + vm_compute. reflexivity.
    + exact N1.
    + exact N2.
    + vm_compute. reflexivity.
    + assert (Es : s4 = fst (rstep 0 7 (play s2 after_loss) (QRead 0 ["w"; "u"]))) by now rewrite E4. clear E4. subst s4.
      specialize (H4 [Cycle (state_w 2)] _ _ (comp_cycle 0 7 (plan 2) _ (state_w 2) [] _ (or_intror (or_introl eq_refl)) eq_refl (comp_end 0 7 (plan 2) _))
                                           (comp_cycle 0 7 (plan 2) _ (state_w 2) [] _ (or_intror (or_introl eq_refl)) eq_refl (comp_end 0 7 (plan 2) _))).
      assert (Pl : place (plan 2) (state_w 2) 2 [0] 0 [0; 1]).
      { split; [right; left; reflexivity|]. split; [cbn; lia|]. split; [apply in_range_1; lia|]. split; [cbn; lia|]. apply in_range_2; lia. }
      destruct (H4 (state_w 2) 2 [0] 0 [0; 1] 5 Pl) as (H5 & _).
      match type of H5 with _ -> ?Q => assert (Bad : Q) by (apply H5; see 0%nat) end. clear H5 H4.
      destruct Bad as (i & p & Np & _ & n & m & F & Em & Sh).
      match type of Np with nth_error ?l i = _ => let l' := eval vm_compute in l in change (nth_error l' i = Some p) in Np end.
      destruct i as [|[|i]]; try discriminate Np. injection Np as <-. vm_compute in F. injection F as <-. vm_compute in Em. injection Em as <-. vm_compute in Sh. discriminate Sh.
Qed.
Print Assumptions C148_continues_refuted.
