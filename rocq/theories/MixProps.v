(** C161: arrays on fields of global and local collections, kept in one file. *)
From Coq Require Import String Sorting.Sorted.
From Verif Require Import Base CIntModel GridModel GridSpec StridedModel UnitsModel LayoutModel LayoutSpec LayoutProofs FieldModel.
From Verif Require Import RegistryModel RegistrySpec NumpyModel NumpySpec PyArrayModel PyArraySpec PyArrayProps.
From Verif Require Import FrameModel NetCDFModel NetCDFSpec NetCDFProofs4 NetCDFProofs8 SessionModel StackModel StackSpec StackProofs StackProofs2 StackProofs3 StackProps.
From Verif Require Import MixModel MixSpec MixProofs MixProofs2 MixProofs3 MixProofs4 MixProofs5.
Local Open Scope Z_scope.
Local Open Scope list_scope.
Local Open Scope string_scope.

(** Programs can make a file with the fields of all collections, and open one that was
    made, at any time. *)
Theorem C161_created {A} (zero junk : A) D ys l s known gnames ls c : workable D -> assembled zero junk D ys ->
  plays zero junk D any_ycall (mk_ystate ys None false) [] l s known -> all_names (d_base D) gnames -> all_local_names D ls ->
  exists s', ystep zero junk s (YCreate gnames ls c) = (s', Ok tt) /\ z_players s' = z_players s /\ writable_mix s' /\ in_mode s' Creating /\ nb_frames s' = 0.
Proof. intros H T R. apply (create_mix zero junk D H). apply (plays_tied zero junk D H _ _ _ _ _ _ R). now apply (begin_tied_mix zero). Qed.
Print Assumptions C161_created.
Theorem C161_opened {A} (zero junk : A) D ys l s known append gnames ls : workable D -> assembled zero junk D ys ->
  plays zero junk D any_ycall (mk_ystate ys None false) [] l s known -> z_file s <> None -> all_names (d_base D) gnames -> all_local_names D ls ->
  exists s', ystep zero junk s (YOpen append gnames ls) = (s', Ok tt) /\ z_players s' = z_players s /\ z_open s' = true /\ (append = true -> writable_mix s').
Proof. intros H T R. apply (open_mix zero junk D H). apply (plays_tied zero junk D H _ _ _ _ _ _ R). now apply (begin_tied_mix zero). Qed.
Print Assumptions C161_opened.
Theorem C161_frames {A} (zero junk : A) D ys l s known : workable D -> assembled zero junk D ys ->
  plays zero junk D any_ycall (mk_ystate ys None false) [] l s known -> z_open s = true ->
  exists s', ystep zero junk s YAppendFrame = (s', Ok tt) /\ z_players s' = z_players s /\ z_open s' = true /\ nb_frames s' = nb_frames s + 1 /\ (writable_mix s -> writable_mix s').
Proof. intros H T R. apply (append_mix zero junk D). apply (plays_tied zero junk D H _ _ _ _ _ _ R). now apply (begin_tied_mix zero). Qed.
Print Assumptions C161_frames.

(** A program has written a field of one of its collections.  Whatever was done before,
    and is done after it except for writing this frame of the field again or making
    another file, the frame can be read; and then arrays of the field, on any process of
    any program, show at the pixels of that process what an array of the program that
    wrote it showed then, wherever the pixel is in the collections of the two. *)
Theorem C161_last_write {A} (zero junk : A) D ys l s1 known1 p q k names fr : workable D -> assembled zero junk D ys ->
  plays zero junk D any_ycall (mk_ystate ys None false) [] l s1 known1 ->
  writable_mix s1 -> In (p, q) (holdings D) -> In (i_name q) names -> proper_mix zero junk D known1 s1 (YWrite k names) -> accessed k (nb_frames s1) = Ok fr ->
  exists s2, ystep zero junk s1 (YWrite k names) = (s2, Ok tt) /\ z_players s2 = z_players s1 /\
  forall l' s3 known3 k' names', plays zero junk D (leaves_mix (i_name q) fr) s2 (learns zero junk D known1 s1 (YWrite k names)) l' s3 known3 ->
    accessed fr (nb_frames s3) = Ok fr /\
    (z_open s3 = true -> In (i_name q) names' -> proper_mix zero junk D known3 s3 (YRead k' names') -> accessed k' (nb_frames s3) = Ok fr ->
     exists s4, ystep zero junk s3 (YRead k' names') = (s4, Ok tt) /\
     forall i v y m c b x idx a, array_at s1 i p v (i_name q) y m -> indexed y p x idx -> in_shape (i_comp q) c -> 0 <= b < i_nsub q -> view_get (m_py m) v (c ++ b :: idx) = Ok a ->
     forall j w y3 m3 idx3, array_at s3 j p w (i_name q) y3 m3 -> indexed y3 p x idx3 ->
     exists y4 m4, array_at s4 j p w (i_name q) y4 m4 /\ indexed y4 p x idx3 /\ view_get (m_py m4) w (c ++ b :: idx3) = Ok a).
Proof. intros H. now apply mix_last_write. Qed.
Print Assumptions C161_last_write.

(** Arrays of other fields show what they showed, and collections keep their pixels,
    also if reading fails. *)
Theorem C161_others {A} (zero junk : A) D ys l s known k names : workable D -> assembled zero junk D ys ->
  plays zero junk D any_ycall (mk_ystate ys None false) [] l s known -> incl names (field_names D) ->
  let s' := fst (ystep zero junk s (YRead k names)) in
  forall j p v y m w, nth_error (z_players s) j = Some y -> slot y p = Some m -> nth_error (p_views (m_py m)) v = Some w ->
  (forall q, In (p, q) (holdings D) -> In (i_name q) names -> PyArrayModel.v_name w <> i_name q) ->
  exists y' m', nth_error (z_players s') j = Some y' /\ slot y' p = Some m' /\ nth_error (p_views (m_py m')) v = Some w /\ pixel_ids m' = pixel_ids m /\
    forall idx, view_get (m_py m') v idx = view_get (m_py m) v idx.
Proof. intros H. now apply mix_others. Qed.
Print Assumptions C161_others.

(** The domain of 2 x 2 pixels of C146, where three pixels also belong to the local
    collection [px] with the field [v].  Two processes with a column each write, a
    program of one process reads. *)
Definition not_corner (x : list Z) : Prop := x = [0; 1] \/ x = [1; 0] \/ x = [1; 1].
Definition px : lot := mk_lot "px" [mk_item "v" [2] 1 "pixel"] not_corner 3.
Definition plan2 : design := mk_design grid [px].
Definition local_coll : coll Z := match new_coll false ColMajor [] with Ok c => c | _ => p_coll begin_ end.
Definition local_calls (ids : list Z) : list (pycall Z) :=
  map (fun i => PColl (OAddPixel i)) ids ++ [PColl (ORegister "v" Real (inr [2]) "pixel" (unitless 0) false); PColl OInitLocal].
Definition local_first (ids : list Z) : member Z := member_run 0 7 (mk_member (PyArrayModel.mk_session local_coll []) [] []) (local_calls ids).
Definition local_process (ids : list Z) : member Z := member_run 0 7 (local_first ids) [PArray "v" SubPt].
Definition player_with (m : member Z) (ids : list Z) : player Z := mk_player m (set_at "px" (Some (local_process ids)) (fun _ => None)).
Definition left_player := player_with left_half [1].
Definition right_player := player_with right_half [0; 1].
Definition whole_player := player_with whole [1; 2; 3].
Lemma plan2_workable : workable plan2.
Proof.
  split; [cbn; lia|]. split; [cbn; repeat constructor; cbn; intuition discriminate|]. split.
  - intros p q [[= <- <-]|[[= <- <-]|[[= <- <-]|[]]]]; cbn [i_name i_tag i_comp i_nsub]; (split; [apply plain_clean; vm_compute; reflexivity|]);
      (split; [apply plain_clean; vm_compute; reflexivity|]); (split; [cbn; lia|]); (split; [cbn; lia|]); cbn; intros; lia.
  - intros t [<-|[]]. split; [apply plain_clean; vm_compute; reflexivity|cbn; lia].
Qed.
Lemma box_two n m l k x : in_box [n; m] [l; k] x <-> exists a b, x = [a; b] /\ l <= a < l + n /\ k <= b < k + m.
Proof.
  unfold in_box. cbn [length]. split.
  - intros (L & H). destruct x as [|a [|b [|]]]; try discriminate L. exists a, b. split; [reflexivity|]. split; [exact (H 0%nat ltac:(lia))|exact (H 1%nat ltac:(lia))].
  - intros (a & b & -> & Ha & Hb). split; [reflexivity|]. intros [|[|i]] Hi; [exact Ha|exact Hb|lia].
Qed.
Lemma local_prepared_case (base : member Z) nsd loc ids : box base = nsd -> m_loc base = loc ->
  (nsd = [1; 2] /\ loc = [0; 0] /\ ids = [1] \/ nsd = [1; 2] /\ loc = [1; 0] /\ ids = [0; 1] \/ nsd = [2; 2] /\ loc = [0; 0] /\ ids = [1; 2; 3]) ->
  let y := player_with base ids in exists m, y_locals y "px" = Some m /\ prepared_local 0 7 px y m.
Proof.
  intros Eb El Hn y. exists (local_process ids). split; [reflexivity|].
  assert (Ei : pixel_ids (local_process ids) = ids) by (destruct Hn as [(_ & _ & ->)|[(_ & _ & ->)|(_ & _ & ->)]]; vm_compute; reflexivity).
  split; [|split; [|split; [|split]]].
  - exists (local_calls ids), (local_first ids), [PArray "v" SubPt]. split; [exists [], local_coll; split; [reflexivity|]; split; [constructor|]; split; [|reflexivity]|].
    + unfold local_calls. destruct Hn as [(_ & _ & ->)|[(_ & _ & ->)|(_ & _ & ->)]]; cbn [map app]; repeat constructor; cbn; lia.
    + destruct Hn as [(_ & _ & ->)|[(_ & _ & ->)|(_ & _ & ->)]]; (split; [vm_compute; reflexivity|]); (split; [vm_compute; reflexivity|]); (split; [repeat constructor|reflexivity]).
  - rewrite Ei. destruct Hn as [(_ & _ & ->)|[(_ & _ & ->)|(_ & _ & ->)]]; repeat constructor; lia.
  - rewrite Ei. intros i Hi. unfold number_of, has, y, player_with. cbn [y_base]. rewrite Eb, El. clear y Eb El Ei.
    destruct Hn as [(-> & -> & ->)|[(-> & -> & ->)|(-> & -> & ->)]]; cbn in Hi.
    + destruct Hi as [<-|[]]. exists [0; 1]. split; [apply box_two; exists 0, 1; intuition lia|reflexivity].
    + destruct Hi as [<-|[<-|[]]]; [exists [1; 0]|exists [1; 1]]; (split; [apply box_two; do 2 eexists; split; [reflexivity|lia]|reflexivity]).
    + destruct Hi as [<-|[<-|[<-|[]]]]; [exists [1; 0]|exists [0; 1]|exists [1; 1]]; (split; [apply box_two; do 2 eexists; split; [reflexivity|lia]|reflexivity]).
  - rewrite Ei. intros x Hx. unfold number_of, has, y, player_with in *. cbn [y_base] in *. rewrite Eb, El in *. clear y Eb El Ei. cbn [px o_pixels]. unfold not_corner.
    destruct Hn as [(-> & -> & ->)|[(-> & -> & ->)|(-> & -> & ->)]]; apply box_two in Hx; destruct Hx as (a & b & -> & Ha & Hb); assert (Eb : b = 0 \/ b = 1) by lia.
    + assert (a = 0) by lia. subst a. clear - Eb. destruct Eb as [-> | ->]; vm_compute; intuition discriminate.
    + assert (a = 1) by lia. subst a. clear - Eb. destruct Eb as [-> | ->]; vm_compute; intuition discriminate.
    + assert (Ea : a = 0 \/ a = 1) by lia. clear - Ea Eb. destruct Ea as [-> | ->], Eb as [-> | ->]; vm_compute; intuition discriminate.
  - clear y Eb El Ei. intros q [<-|[]]. destruct Hn as [(_ & _ & ->)|[(_ & _ & ->)|(_ & _ & ->)]]; eexists; (split; [vm_compute; reflexivity|]); vm_compute; intuition discriminate.
Qed.
Lemma halves_assembled : assembled 0 7 plan2 [left_player; right_player].
Proof.
  split; [exact halves_together|]. intros t [<-|[]]. split; [|vm_compute; reflexivity]. intros y [<-|[<-|[]]].
  - apply (local_prepared_case left_half [1; 2] [0; 0] [1]); [vm_compute; reflexivity|vm_compute; reflexivity|auto].
  - apply (local_prepared_case right_half [1; 2] [1; 0] [0; 1]); [vm_compute; reflexivity|vm_compute; reflexivity|auto].
Qed.
Lemma whole_assembled : assembled 0 7 plan2 [whole_player].
Proof.
  split; [exact whole_together|]. intros t [<-|[]]. split; [|vm_compute; reflexivity]. intros y [<-|[]].
  apply (local_prepared_case whole [2; 2] [0; 0] [1; 2; 3]); [vm_compute; reflexivity|vm_compute; reflexivity|auto].
Qed.
Definition mix_before : list (ycall Z) :=
  [YPy 0 (Some "px") (PPut 0 [1; 0; 0] 5); YPy 1 (Some "px") (PPut 0 [1; 0; 1] 6); YPy 1 None (PPut 0 [1; 0; 0; 0] 4);
   YCreate ["u"; "t"] [("px", ["v"])] (fun _ _ => 9); YAppendFrame; YAppendFrame].
Definition mix_after : list (ycall Z) :=
  [YPy 0 (Some "px") (PPut 0 [1; 0; 0] 8); YWrite 0 ["u"; "v"]; YClose; YRun [whole_player]; YOpen false ["t"; "u"] [("px", ["v"])]; YPy 0 None (PPut 1 [0; 0; 0] 3)].
Definition mix_play (s : ystate Z) (known : list string) (l : list (ycall Z)) : ystate Z * list string :=
  fold_left (fun x k => (fst (ystep 0 7 (fst x) k), learns 0 7 plan2 (snd x) (fst x) k)) l (s, known).
Fixpoint each_ycall (K : ystate Z -> ycall Z -> Prop) (s : ystate Z) (known : list string) (l : list (ycall Z)) : Prop :=
  match l with [] => True | k :: r => proper_mix 0 7 plan2 known s k /\ K s k /\ each_ycall K (fst (ystep 0 7 s k)) (learns 0 7 plan2 known s k) r end.
Lemma plays_play K l : forall s known, each_ycall K s known l -> plays 0 7 plan2 K s known l (fst (mix_play s known l)) (snd (mix_play s known l)).
Proof. induction l as [|k l IH]; intros s known H; [constructor|]. destruct H as (H1 & H2 & H3). constructor; [exact H1|exact H2|]. exact (IH _ _ H3). Qed.
Lemma px_names : all_local_names plan2 [("px", ["v"])].
Proof.
  split; [repeat constructor; cbn; tauto|]. split; [intros t [<-|[]]; now left|]. intros l names [[= <- <-]|[]]. exists px. split; [now left|]. split; [reflexivity|]. split; [repeat constructor; cbn; tauto|]. intros n. cbn. tauto.
Qed.
Definition can_write (s : ystate Z) : bool := z_open s && match z_file s with Some f => match se_mode f with Reading => false | _ => true end | None => false end.
Lemma can_write_ok s : can_write s = true -> writable_mix s.
Proof. intros H. apply andb_prop in H. destruct H as (O & H). split; [exact O|]. destruct (z_file s) as [f|]; [|discriminate H]. exists f. split; [reflexivity|]. intros E. rewrite E in H. discriminate H. Qed.
Lemma creating_not (s : ystate Z) : creating s = true -> ~ in_mode s Appending.
Proof. intros H (O & f & E & Md). unfold creating in H. rewrite E, O, Md in H. discriminate H. Qed.
(** Decides what an array shows. *)
Definition look (s : ystate Z) (i : nat) (p : option string) (v : nat) (name : string) (idx : list Z) : option Z :=
  match nth_error (z_players s) i with
  | Some y => match slot y p with
    | Some m => match nth_error (p_views (m_py m)) v with
      | Some w => if String.eqb (PyArrayModel.v_name w) name then match v_unit w, view_get (m_py m) v idx with SubPt, Ok a => Some a | _, _ => None end else None
      | None => None end
    | None => None end
  | None => None end.
Lemma look_ok s i p v name idx a : look s i p v name idx = Some a -> exists y m, array_at s i p v name y m /\ view_get (m_py m) v idx = Ok a.
Proof.
  unfold look, array_at. destruct (nth_error (z_players s) i) as [y|]; [|discriminate]. destruct (slot y p) as [m|] eqn:Es; [|discriminate]. destruct (nth_error (p_views (m_py m)) v) as [w|] eqn:Ew; [|discriminate].
  destruct (String.eqb _ name) eqn:En; [|discriminate]. apply String.eqb_eq in En. destruct (v_unit w) eqn:Eu; try discriminate. destruct (view_get (m_py m) v idx) as [b| |] eqn:Ev; try discriminate. intros [= <-].
  exists y, m. split; [|exact Ev]. split; [reflexivity|]. split; [exact Es|]. exists w. auto.
Qed.
Definition placed_at (s : ystate Z) (i : nat) (l : string) (x : list Z) (j : nat) : bool :=
  match nth_error (z_players s) i with
  | Some y => match m_loc (y_base y), box (y_base y), x with
              | [l1; l2], [n1; n2], [a; b] => ((l1 <=? a) && (a <? l1 + n1) && (l2 <=? b) && (b <? l2 + n2))%Z && match nth_error (ids_of y l) j with Some k => (k =? number_of y x)%Z | None => false end
              | _, _, _ => false end
  | None => false end.
Lemma placed_ok s i l x j p v name y m : placed_at s i l x j = true -> array_at s i p v name y m -> indexed y (Some l) x [Z.of_nat j].
Proof.
  unfold placed_at. intros H (N & _). rewrite N in H. destruct (m_loc (y_base y)) as [|l1 [|l2 [|]]] eqn:El; try discriminate H. destruct (box (y_base y)) as [|n1 [|n2 [|]]] eqn:Eb; try discriminate H. destruct x as [|a [|b [|]]]; try discriminate H.
  apply andb_prop in H. destruct H as (H & Hj). split; [unfold has; rewrite El, Eb; apply box_two; exists a, b; split; [reflexivity|lia]|].
  exists j. split; [|reflexivity]. destruct (nth_error _ j) as [k|]; [|discriminate Hj]. apply Z.eqb_eq in Hj. now subst k.
Qed.
Lemma all_known known names : In "px" known -> pixels_known plan2 known names.
Proof. intros H l q [[=]|[[=]|[[= <- <-]|[]]]] _. exact H. Qed.
Example C161_case :
  let s0 := mk_ystate [left_player; right_player] None false in
  let '(s1, known1) := mix_play s0 [] mix_before in
  let s2 := fst (ystep 0 7 s1 (YWrite 1 ["v"; "u"])) in
  let known2 := learns 0 7 plan2 known1 s1 (YWrite 1 ["v"; "u"]) in
  let '(s3, known3) := mix_play s2 known2 mix_after in
  let s4 := fst (ystep 0 7 s3 (YRead (-1) ["v"])) in
  workable plan2 /\ assembled 0 7 plan2 [left_player; right_player] /\
  plays 0 7 plan2 any_ycall s0 [] mix_before s1 known1 /\ writable_mix s1 /\ accessed 1 (nb_frames s1) = Ok 1 /\ proper_mix 0 7 plan2 known1 s1 (YWrite 1 ["v"; "u"]) /\
  plays 0 7 plan2 (leaves_mix "v" 1) s2 known2 mix_after s3 known3 /\ accessed (-1) (nb_frames s3) = Ok 1 /\ proper_mix 0 7 plan2 known3 s3 (YRead (-1) ["v"]) /\
  (exists y m, array_at s1 1 (Some "px") 0 "v" y m /\ indexed y (Some "px") [1; 1] [1] /\ view_get (m_py m) 0 [1; 0; 1] = Ok 6) /\
  (exists y m, array_at s3 0 (Some "px") 0 "v" y m /\ indexed y (Some "px") [1; 1] [2] /\ view_get (m_py m) 0 [1; 0; 2] = Ok 0) /\
  (exists y m, array_at s4 0 (Some "px") 0 "v" y m /\ indexed y (Some "px") [1; 1] [2] /\ view_get (m_py m) 0 [1; 0; 2] = Ok 6) /\
  (exists y m, array_at s4 0 (Some "px") 0 "v" y m /\ indexed y (Some "px") [0; 1] [1] /\ view_get (m_py m) 0 [1; 0; 1] = Ok 5) /\
  (exists y m, array_at s4 0 None 1 "t" y m /\ view_get (m_py m) 1 [0; 0; 0] = Ok 3).
Proof.
  cbn zeta.
  assert (N1 : all_names grid ["u"; "t"]) by (split; [repeat constructor; cbn; intuition discriminate|intros n; cbn; tauto]).
  assert (N2 : all_names grid ["t"; "u"]) by (split; [repeat constructor; cbn; intuition discriminate|intros n; cbn; tauto]).
  set (s0 := mk_ystate [left_player; right_player] None false).
  destruct (mix_play s0 [] mix_before) as [s1 known1] eqn:E1.
  assert (F1 : s1 = fst (mix_play s0 [] mix_before)) by now rewrite E1. assert (G1 : known1 = snd (mix_play s0 [] mix_before)) by now rewrite E1.
  set (s2 := fst (ystep 0 7 s1 (YWrite 1 ["v"; "u"]))). set (known2 := learns 0 7 plan2 known1 s1 (YWrite 1 ["v"; "u"])).
  destruct (mix_play s2 known2 mix_after) as [s3 known3] eqn:E3.
  assert (F3 : s3 = fst (mix_play s2 known2 mix_after)) by now rewrite E3. assert (G3 : known3 = snd (mix_play s2 known2 mix_after)) by now rewrite E3.
  split; [exact plan2_workable|]. split; [exact halves_assembled|].
  split; [rewrite F1, G1; apply plays_play; unfold mix_before; cbn [each_ycall proper_mix orderly d_base plan2]; repeat (split; [first [exact I|exact (conj N1 px_names)]|split; [exact I|]]); exact I|].
  split; [apply can_write_ok; rewrite F1; vm_compute; reflexivity|].
  split; [rewrite F1; vm_compute; reflexivity|].
  assert (Ek : known2 = ["px"]) by (unfold known2; rewrite F1, G1; vm_compute; reflexivity).
  assert (Ek3 : In "px" known3) by (rewrite G3; unfold s2; rewrite Ek, F1; vm_compute; auto).
  split; [split; [intros n; cbn; tauto|]; intros Md; exfalso; revert Md; apply creating_not; rewrite F1; vm_compute; reflexivity|].
  split; [|split; [rewrite F3, Ek; unfold s2; rewrite F1; vm_compute; reflexivity|]].
  - rewrite F3, G3. apply plays_play. unfold mix_after. cbn [each_ycall proper_mix orderly leaves_mix d_base plan2]. split; [exact I|]. split; [exact I|]. split; [split; [intros n; cbn; tauto|]|].
    + intros _. cbn [learns]. rewrite Ek. apply all_known. now left.
    + split; [intros [_ H]; assert (Ac : is_ok (accessed 0 (nb_frames (fst (ystep 0 7 s2 (YPy 0 (Some "px") (PPut 0 [1; 0; 0] 8)))))) = true); revert H; unfold s2; rewrite F1; vm_compute; discriminate|]. repeat (split; [first [exact I|exact (conj N2 px_names)|exact whole_assembled]|split; [exact I|]]). exact I.
  - split; [split; [intros n; cbn; tauto|now apply all_known]|]. set (s4 := fst (ystep 0 7 s3 (YRead (-1) ["v"]))).
    assert (Sh : forall s i x j idx a, placed_at s i "px" x j = true -> look s i (Some "px") 0 "v" idx = Some a -> exists y m, array_at s i (Some "px") 0 "v" y m /\ indexed y (Some "px") x [Z.of_nat j] /\ view_get (m_py m) 0 idx = Ok a).
    { intros s i x j idx a Hp Hl. destruct (look_ok _ _ _ _ _ _ _ Hl) as (y & m & Ha & Hv). exists y, m. split; [exact Ha|]. split; [exact (placed_ok _ _ _ _ _ _ _ _ _ _ Hp Ha)|exact Hv]. }
    rewrite Ek in F3. unfold s2 in F3. rewrite F1 in F3.
    split; [apply (Sh s1 1%nat [1; 1] 1%nat [1; 0; 1] 6); rewrite F1; vm_compute; reflexivity|].
    split; [apply (Sh s3 0%nat [1; 1] 2%nat [1; 0; 2] 0); rewrite F3; vm_compute; reflexivity|].
    split; [apply (Sh s4 0%nat [1; 1] 2%nat [1; 0; 2] 6); unfold s4; rewrite F3; vm_compute; reflexivity|].
    split; [apply (Sh s4 0%nat [0; 1] 1%nat [1; 0; 1] 5); unfold s4; rewrite F3; vm_compute; reflexivity|].
    apply look_ok. unfold s4. rewrite F3. vm_compute. reflexivity.
Qed.
