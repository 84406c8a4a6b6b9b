(** C146: arrays on fields, kept in files. *)
From Coq Require Import String.
From Verif Require Import Base CIntModel GridModel GridSpec StridedModel UnitsModel LayoutModel LayoutSpec LayoutProofs FieldModel.
From Verif Require Import RegistryModel RegistrySpec NumpyModel NumpySpec PyArrayModel PyArraySpec PyArrayProps.
From Verif Require Import FrameModel NetCDFModel NetCDFSpec NetCDFProofs4 NetCDFProofs8 SessionModel StackModel StackSpec StackProofs StackProofs2 StackProofs3 StackProofs4.
Local Open Scope Z_scope.
Local Open Scope list_scope.
Local Open Scope string_scope.

(** The place of a process in the domain is the one it asked for. *)
Theorem C146_placed {A} (zero junk : A) m nd nsd loc o m1 l :
  (exists pstr, o = OInitGlobal nd nsd loc pstr) \/ (exists order, o = OInitGlobalOrder nd nsd loc order) ->
  member_step zero junk m (PColl o) = (m1, Ok tt) -> Forall orderly l ->
  let m2 := member_run zero junk m1 l in
  m_dom m2 = nd /\ (nsd <> [] -> box m2 = nsd) /\ (nsd = [] -> box m2 = nd) /\
  (loc <> [] -> m_loc m2 = loc) /\ (loc = [] -> m_loc m2 = repeat 0 (length (box m2))).
Proof.
  intros H E O. cbn zeta. destruct (init_placed zero junk m nd nsd loc o m1 E H) as (D & B & L & I). destruct (stays_placed zero junk l m1 I O) as (-> & -> & ->).
  split; [exact D|]. rewrite B in *. split; [destruct nsd; [congruence|reflexivity]|]. split; [intros ->; reflexivity|].
  rewrite L. unfold default_loc. split; intros Hl; destruct loc; congruence || reflexivity.
Qed.
Print Assumptions C146_placed.

(** Programs can make a file, and open one that was made, at any time. *)
Theorem C146_created {A} (zero junk : A) S ms l s names c : acceptable S -> together zero junk S ms ->
  runs zero junk S any_call (mk_state ms None false) l s -> all_names S names ->
  exists s', tstep zero junk s (TCreate names c) = (s', Ok tt) /\ t_members s' = t_members s /\ writable s' /\ frames s' = 0.
Proof. intros H T R. apply tied_create; [exact H|]. apply (runs_tied zero junk S H _ _ _ _ R). now apply (begin_tied zero). Qed.
Print Assumptions C146_created.
Theorem C146_opened {A} (zero junk : A) S ms l s append names : acceptable S -> together zero junk S ms ->
  runs zero junk S any_call (mk_state ms None false) l s -> t_file s <> None -> all_names S names ->
  exists s', tstep zero junk s (TOpen append names) = (s', Ok tt) /\ t_members s' = t_members s /\ t_open s' = true /\ (append = true -> writable s').
Proof. intros H T R. apply tied_open; [exact H|]. apply (runs_tied zero junk S H _ _ _ _ R). now apply (begin_tied zero). Qed.
Print Assumptions C146_opened.
Theorem C146_frames {A} (zero junk : A) S ms l s : acceptable S -> together zero junk S ms ->
  runs zero junk S any_call (mk_state ms None false) l s -> t_open s = true ->
  exists s', tstep zero junk s TAppendFrame = (s', Ok tt) /\ t_members s' = t_members s /\ t_open s' = true /\ frames s' = frames s + 1 /\ (writable s -> writable s').
Proof. intros H T R. apply (tied_append zero junk S). apply (runs_tied zero junk S H _ _ _ _ R). now apply (begin_tied zero). Qed.
Print Assumptions C146_frames.

(** A program has written a field.  Whatever was done before, and is done after it
    except for writing this frame of the field again or making another file, the frame
    can be read; and then arrays of the field, on any process of any program, show at
    the pixels of that process what an array of the program that wrote it showed then. *)
Theorem C146_last_write {A} (zero junk : A) S ms l s1 q k names fr : acceptable S -> together zero junk S ms ->
  runs zero junk S any_call (mk_state ms None false) l s1 ->
  writable s1 -> In q (sc_items S) -> In (i_name q) names -> incl names (map i_name (sc_items S)) -> accessed k (frames s1) = Ok fr ->
  exists s2, tstep zero junk s1 (TWrite k names) = (s2, Ok tt) /\ t_members s2 = t_members s1 /\
  forall l' s3 k' names', runs zero junk S (leaves (i_name q) fr) s2 l' s3 ->
    accessed fr (frames s3) = Ok fr /\
    (t_open s3 = true -> In (i_name q) names' -> incl names' (map i_name (sc_items S)) -> accessed k' (frames s3) = Ok fr ->
     exists s4, tstep zero junk s3 (TRead k' names') = (s4, Ok tt) /\
     forall i v m c b x a, array_of s1 i v (i_name q) m -> has m x -> in_shape (i_comp q) c -> 0 <= b < i_nsub q -> shows m v c b x a ->
     forall j w m3, array_of s3 j w (i_name q) m3 -> has m3 x -> exists m4, array_of s4 j w (i_name q) m4 /\ shows m4 w c b x a).
Proof. intros H. now apply stack_last_write. Qed.
Print Assumptions C146_last_write.

(** Arrays of other fields show what they showed, also if reading fails. *)
Theorem C146_others {A} (zero junk : A) S ms l s k names : acceptable S -> together zero junk S ms ->
  runs zero junk S any_call (mk_state ms None false) l s ->
  let s' := fst (tstep zero junk s (TRead k names)) in
  forall j v m w, nth_error (t_members s) j = Some m -> nth_error (p_views (m_py m)) v = Some w -> ~ In (PyArrayModel.v_name w) names ->
  exists m', nth_error (t_members s') j = Some m' /\ nth_error (p_views (m_py m')) v = Some w /\ forall idx, view_get (m_py m') v idx = view_get (m_py m) v idx.
Proof. intros H. now apply stack_others. Qed.
Print Assumptions C146_others.

(** A domain of 2 x 2 pixels.  Two processes with a column each write the second
    component of [u]; a program of one process, which stores its fields by rows, reads
    it. *)
Definition grid : scheme := mk_scheme [2; 2] [mk_item "u" [2] 1 "pixel"; mk_item "t" [] 1 "pixel"].
Definition coll_of (order : storder) : coll Z := match new_coll true order [] with Ok c => c | _ => p_coll begin_ end.
Definition first_calls (nsd loc : list Z) : list (pycall Z) :=
  [PColl (ORegister "u" Real (inr [2]) "pixel" (unitless 0) false); PColl (ORegister "t" Int (inr []) "pixel" (unitless 0) false);
   PColl (OInitGlobalOrder [2; 2] nsd loc Automatic)].
Definition first_state (order : storder) (nsd loc : list Z) : member Z :=
  member_run 0 7 (mk_member (PyArrayModel.mk_session (coll_of order) []) [] []) (first_calls nsd loc).
Definition process (order : storder) (nsd loc : list Z) : member Z := member_run 0 7 (first_state order nsd loc) [PArray "u" SubPt; PArray "t" SubPt].
Notation left_half := (process ColMajor [1; 2] [0; 0]).
Notation right_half := (process ColMajor [1; 2] [1; 0]).
Notation whole := (process RowMajor [2; 2] [0; 0]).
Lemma grid_acceptable : acceptable grid.
Proof.
  split; [cbn; lia|]. split; [cbn; repeat constructor; cbn; intuition discriminate|].
  intros q [<-|[<-|[]]]; cbn [i_name i_tag i_comp i_nsub]; (split; [apply plain_clean; vm_compute; reflexivity|]);
    (split; [apply plain_clean; vm_compute; reflexivity|]); split; cbn; lia.
Qed.
Lemma small_embeds a b s1 s2 n : 0 < a -> 0 < b -> (s1 = 1 /\ s2 = a \/ s1 = b /\ s2 = 1) -> n = a * b -> embeds [a; b] [s1; s2] n.
Proof.
  intros Ha Hb Hs ->. split; [reflexivity|]. split.
  - intros c Hc. apply in_shape_cons in Hc. destruct Hc as (x & r & -> & Hx & Hc). apply in_shape_cons in Hc. destruct Hc as (y & r' & -> & Hy & Hc). apply in_shape_nil in Hc. subst r'.
    cbn. destruct Hs as [[-> ->]|[-> ->]]; nia.
  - intros c d Hc Hd. apply in_shape_cons in Hc. destruct Hc as (x & r & -> & Hx & Hc). apply in_shape_cons in Hc. destruct Hc as (y & r' & -> & Hy & Hc). apply in_shape_nil in Hc. subst r'.
    apply in_shape_cons in Hd. destruct Hd as (z & r & -> & Hz & Hd). apply in_shape_cons in Hd. destruct Hd as (t & r' & -> & Ht & Hd). apply in_shape_nil in Hd. subst r'.
    cbn. intros E. destruct Hs as [[-> ->]|[-> ->]].
    + assert (y = t) by nia. subst t. assert (x = z) by lia. now subst.
    + assert (x = z) by nia. subst z. assert (y = t) by lia. now subst.
Qed.
Lemma process_prepared order nsd loc : (order = ColMajor \/ order = RowMajor) ->
  (nsd = [1; 2] /\ loc = [0; 0] \/ nsd = [1; 2] /\ loc = [1; 0] \/ nsd = [2; 2] /\ loc = [0; 0]) -> prepared 0 7 grid (process order nsd loc).
Proof.
  intros Ho Hn. split.
  - exists (first_calls nsd loc), (first_state order nsd loc), [PArray "u" SubPt; PArray "t" SubPt]. split.
    + exists order, [], (coll_of order). split; [exact Ho|]. split; [destruct Ho as [-> | ->]; reflexivity|]. split; [constructor|].
      split; [|reflexivity]. unfold first_calls. repeat constructor; cbn; lia.
    + destruct Ho as [-> | ->]; destruct Hn as [[-> ->]|[[-> ->]|[-> ->]]]; (split; [vm_compute; reflexivity|]); (split; [vm_compute; reflexivity|]);
        (split; [|split; [repeat constructor|reflexivity]]); (split; [vm_compute; auto|]);
        (split; [|split; [vm_compute; reflexivity|vm_compute; split; discriminate]]); vm_compute c_pix; vm_compute c_pstr; vm_compute c_nbuf; apply small_embeds; lia.
  - destruct Ho as [-> | ->]; destruct Hn as [[-> ->]|[[-> ->]|[-> ->]]]; (split; [vm_compute; reflexivity|]); (split; [vm_compute; reflexivity|]); (split; [vm_compute; reflexivity|]);
      (split; [intros [|[|i]] Hi; [vm_compute; intuition discriminate..|cbn in Hi; lia]|]);
      intros q [<-|[<-|[]]]; eexists; (split; [vm_compute; reflexivity|]); vm_compute; intuition discriminate.
Qed.
Lemma process_box order nsd loc : (order = ColMajor \/ order = RowMajor) ->
  (nsd = [1; 2] /\ loc = [0; 0] \/ nsd = [1; 2] /\ loc = [1; 0] \/ nsd = [2; 2] /\ loc = [0; 0]) ->
  box (process order nsd loc) = nsd /\ m_loc (process order nsd loc) = loc /\ length nsd = 2%nat.
Proof. intros [-> | ->] [[-> ->]|[[-> ->]|[-> ->]]]; vm_compute; auto. Qed.
Lemma has_length order nsd loc x : (order = ColMajor \/ order = RowMajor) ->
  (nsd = [1; 2] /\ loc = [0; 0] \/ nsd = [1; 2] /\ loc = [1; 0] \/ nsd = [2; 2] /\ loc = [0; 0]) -> has (process order nsd loc) x -> length x = 2%nat.
Proof. intros Ho Hn. unfold has. destruct (process_box order nsd loc Ho Hn) as (-> & -> & L). intros [H _]. congruence. Qed.
Lemma has_at order nsd loc x y : (order = ColMajor \/ order = RowMajor) ->
  (nsd = [1; 2] /\ loc = [0; 0] \/ nsd = [1; 2] /\ loc = [1; 0] \/ nsd = [2; 2] /\ loc = [0; 0]) ->
  (has (process order nsd loc) [x; y] <-> zn loc 0 <= x < zn loc 0 + zn nsd 0 /\ zn loc 1 <= y < zn loc 1 + zn nsd 1).
Proof.
  intros Ho Hn. unfold has. destruct (process_box order nsd loc Ho Hn) as (-> & -> & L). unfold in_box. rewrite L. split.
  - intros (_ & H). split; [exact (H 0%nat ltac:(lia))|exact (H 1%nat ltac:(lia))].
  - intros (H1 & H2). split; [reflexivity|]. intros [|[|i]] Hi; [exact H1|exact H2|lia].
Qed.
Lemma left_prepared : prepared 0 7 grid left_half.
Proof. exact (process_prepared ColMajor [1; 2] [0; 0] (or_introl eq_refl) (or_introl (conj eq_refl eq_refl))). Qed.
Lemma right_prepared : prepared 0 7 grid right_half.
Proof. exact (process_prepared ColMajor [1; 2] [1; 0] (or_introl eq_refl) (or_intror (or_introl (conj eq_refl eq_refl)))). Qed.
Lemma whole_prepared : prepared 0 7 grid whole.
Proof. exact (process_prepared RowMajor [2; 2] [0; 0] (or_intror eq_refl) (or_intror (or_intror (conj eq_refl eq_refl)))). Qed.
Lemma left_has x y : has left_half [x; y] <-> x = 0 /\ 0 <= y < 2.
Proof. pose proof (has_at ColMajor [1; 2] [0; 0] x y (or_introl eq_refl) (or_introl (conj eq_refl eq_refl))) as H. unfold zn in H. cbn [nth] in H. rewrite H. intuition lia. Qed.
Lemma right_has x y : has right_half [x; y] <-> x = 1 /\ 0 <= y < 2.
Proof. pose proof (has_at ColMajor [1; 2] [1; 0] x y (or_introl eq_refl) (or_intror (or_introl (conj eq_refl eq_refl)))) as H. unfold zn in H. cbn [nth] in H. rewrite H. intuition lia. Qed.
Lemma whole_has x y : has whole [x; y] <-> 0 <= x < 2 /\ 0 <= y < 2.
Proof. pose proof (has_at RowMajor [2; 2] [0; 0] x y (or_intror eq_refl) (or_intror (or_intror (conj eq_refl eq_refl)))) as H. unfold zn in H. cbn [nth] in H. rewrite H. intuition lia. Qed.
Lemma halves_apart x : has left_half x -> has right_half x -> False.
Proof.
  intros Hl Hr. assert (L : length x = 2%nat) by exact (has_length ColMajor [1; 2] [0; 0] x (or_introl eq_refl) (or_introl (conj eq_refl eq_refl)) Hl).
  destruct x as [|x [|y [|]]]; try discriminate L. apply (proj1 (left_has x y)) in Hl. apply (proj1 (right_has x y)) in Hr. lia.
Qed.
Lemma in_grid c : in_shape (sc_dom grid) c -> exists x y, c = [x; y] /\ 0 <= x < 2 /\ 0 <= y < 2.
Proof.
  intros Hc. apply in_shape_cons in Hc. destruct Hc as (x & r & -> & Hx & Hc). apply in_shape_cons in Hc. destruct Hc as (y & r' & -> & Hy & Hc). apply in_shape_nil in Hc. subst r'. eauto.
Qed.
Lemma halves_together : together 0 7 grid [left_half; right_half].
Proof.
  split; [discriminate|]. split; [exact (Forall_cons _ left_prepared (Forall_cons _ right_prepared (Forall_nil _)))|]. split.
  - apply FOP_cons; [|apply FOP_cons; [apply Forall_nil|apply FOP_nil]]. apply Forall_cons; [exact halves_apart|apply Forall_nil].
  - intros c Hc. destruct (in_grid c Hc) as (x & y & -> & Hx & Hy). destruct (Z.eq_dec x 0) as [E|Ne].
    + exists left_half. split; [exact (or_introl eq_refl)|]. apply (proj2 (left_has x y)). lia.
    + exists right_half. split; [exact (or_intror (or_introl eq_refl))|]. apply (proj2 (right_has x y)). lia.
Qed.
Lemma whole_together : together 0 7 grid [whole].
Proof.
  split; [discriminate|]. split; [exact (Forall_cons _ whole_prepared (Forall_nil _))|]. split; [apply FOP_cons; [apply Forall_nil|apply FOP_nil]|].
  intros c Hc. destruct (in_grid c Hc) as (x & y & -> & Hx & Hy). exists whole. split; [exact (or_introl eq_refl)|]. apply (proj2 (whole_has x y)). lia.
Qed.
Definition before_write : list (StackModel.call Z) :=
  [TPy 0 (PPut 0 [1; 0; 0; 1] 5); TPy 1 (PPut 0 [1; 0; 0; 0] 6); TCreate ["u"; "t"] (fun _ _ => 9); TAppendFrame; TAppendFrame].
Definition after_write : list (StackModel.call Z) :=
  [TPy 0 (PPut 0 [1; 0; 0; 1] 8); TWrite 0 ["u"; "t"]; TClose; TRun [whole]; TOpen false ["t"; "u"]; TPy 0 (PPut 1 [0; 0; 0] 3)].
Definition play (s : state Z) (l : list (StackModel.call Z)) : state Z := fold_left (fun s k => fst (tstep 0 7 s k)) l s.
Fixpoint each_call (K : state Z -> StackModel.call Z -> Prop) (s : state Z) (l : list (StackModel.call Z)) : Prop :=
  match l with [] => True | k :: r => proper 0 7 grid k /\ K s k /\ each_call K (fst (tstep 0 7 s k)) r end.
Lemma runs_play K l : forall s, each_call K s l -> runs 0 7 grid K s l (play s l).
Proof. induction l as [|k l IH]; intros s H; [constructor|]. destruct H as (H1 & H2 & H3). constructor; [exact H1|exact H2|]. exact (IH _ H3). Qed.
Example C146_case :
  let s1 := play (mk_state [left_half; right_half] None false) before_write in
  let s2 := fst (tstep 0 7 s1 (TWrite 1 ["u"])) in
  let s3 := play s2 after_write in
  let s4 := fst (tstep 0 7 s3 (TRead (-1) ["u"])) in
  acceptable grid /\ together 0 7 grid [left_half; right_half] /\
  runs 0 7 grid any_call (mk_state [left_half; right_half] None false) before_write s1 /\ writable s1 /\ accessed 1 (frames s1) = Ok 1 /\
  runs 0 7 grid (leaves "u" 1) s2 after_write s3 /\ accessed (-1) (frames s3) = Ok 1 /\
  (exists m, array_of s3 0 0 "u" m /\ shows m 0 [1] 0 [0; 1] 0) /\
  (exists m, array_of s4 0 0 "u" m /\ shows m 0 [1] 0 [0; 1] 5 /\ shows m 0 [1] 0 [1; 0] 6 /\ shows m 0 [1] 0 [1; 1] 0) /\
  (exists m, array_of s4 0 1 "t" m /\ shows m 1 [] 0 [0; 0] 3).
Proof.
  cbn zeta. split; [exact grid_acceptable|]. split; [exact halves_together|].
  assert (N1 : all_names grid ["u"; "t"]) by (split; [repeat constructor; cbn; intuition discriminate|intros n; cbn; tauto]).
  assert (N2 : all_names grid ["t"; "u"]) by (split; [repeat constructor; cbn; intuition discriminate|intros n; cbn; tauto]).
  split; [apply runs_play; unfold before_write; cbn [each_call proper orderly]; repeat (split; [first [exact I|exact N1]|split; [exact I|]]); exact I|].
  split; [split; [vm_compute; reflexivity|]; eexists; split; [vm_compute; reflexivity|vm_compute; discriminate]|].
  split; [vm_compute; reflexivity|]. split.
  - apply runs_play. unfold after_write. cbn [each_call proper orderly leaves]. split; [exact I|]. split; [exact I|]. split; [apply incl_refl|].
    split; [vm_compute; intros [_ H]; discriminate H|]. repeat (split; [first [exact I|exact N2|exact whole_together]|split; [exact I|]]). exact I.
  - split; [vm_compute; reflexivity|]. split; [eexists; split; [split; [vm_compute; reflexivity|eexists; split; vm_compute; [reflexivity|auto]]|vm_compute; reflexivity]|].
    split; eexists; (split; [split; [vm_compute; reflexivity|eexists; split; vm_compute; [reflexivity|auto]]|]); vm_compute; auto.
Qed.
