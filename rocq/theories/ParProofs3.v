(** One entry of a variable, written or read by all processes, each at its own
    pace. *)
From Coq Require Import String.
From Verif Require Import Base CIntModel GridModel GridSpec StridedModel LayoutModel LayoutSpec LayoutProofs CommModel FrameModel NetCDFModel NetCDFSpec NetCDFProofs5 NetCDFProofs6 NetCDFProofs9 NetCDFProofs10 NetCDFProofs11.
From Verif Require Import SessionModel SessionSpec SessionProofs SessionProofs2 SessionProofs3 SessionProofs4 ParModel ParSpec ParProofs ParProofs2.
Local Open Scope Z_scope.
Local Open Scope list_scope.

Lemma list_at {B} (a : list B) : forall b, (forall i, nth_error a i = nth_error b i) -> a = b.
Proof.
  induction a as [|x a IH]; intros [|y b] H; [reflexivity|specialize (H 0%nat); discriminate|specialize (H 0%nat); discriminate|].
  pose proof (H 0%nat) as H0. cbn in H0. injection H0 as ->. f_equal. apply IH. intros i. exact (H (S i)).
Qed.
Lemma at_length {B C} (a : list B) (b : list C) i x : length a = length b -> nth_error a i = Some x -> exists y, nth_error b i = Some y.
Proof. intros L E. destruct (nth_error b i) as [y|] eqn:Eb; [eauto|]. apply nth_error_None in Eb. assert (i < length a)%nat by (apply nth_error_Some; congruence). lia. Qed.
Lemma combine_ranks {R B C} (rs : list R) (F : R -> B) (G : R -> C) a b : length a = length rs -> length b = length rs ->
  (forall i r, nth_error rs i = Some r -> nth_error a i = Some (F r) /\ nth_error b i = Some (G r)) -> combine a b = map (fun r => (F r, G r)) rs.
Proof.
  intros La Lb H. apply list_at. intros i. rewrite nth_error_map. destruct (nth_error rs i) as [r|] eqn:E.
  - cbn [option_map]. apply combine_at. now apply H.
  - cbn [option_map]. apply nth_error_None. apply nth_error_None in E. rewrite combine_length. lia.
Qed.
Lemma nth_some {B} (l : list B) i x d : nth_error l i = Some x -> nth i l d = x.
Proof. intros E. now rewrite (nth_error_nth l i d E). Qed.
Lemma some_nth {B} (l : list B) i d : (i < length l)%nat -> nth_error l i = Some (nth i l d).
Proof. intros L. destruct (nth_error l i) as [x|] eqn:E; [now rewrite (nth_some _ _ _ d E)|apply nth_error_None in E; lia]. Qed.

Section Phases.
Context {A : Type}.
Notation session := (session A).
Notation world := (world A).
Notation rank := (rank A).
Notation prog := (prog A).
Notation config := (config A).
Implicit Types (s : session) (w : world) (r : rank).

Definition on_file (g : ncfile A -> ncfile A) w : world := mk_world (w_hfile w) (g (w_file w)).
Definition on_hfile (g : ncfile Z -> ncfile Z) w : world := mk_world (g (w_hfile w)) (w_file w).
Definition proper_file {B} (g : ncfile B -> ncfile B) : Prop := forall f f2, same_file f f2 -> same_file (g f) (g f2).
Definition commute_file {B} (g g' : ncfile B -> ncfile B) : Prop := forall f, same_file (g (g' f)) (g' (g f)).
Lemma effect_file l w : effect (map on_file l) w = on_file (after l) w.
Proof. destruct w as [hf f]. unfold effect, after, on_file. cbn. revert f. induction l as [|g l IH]; intros f; [reflexivity|]. cbn [map fold_left w_hfile w_file]. apply IH. Qed.
Lemma effect_hfile l w : effect (map on_hfile l) w = on_hfile (after l) w.
Proof. destruct w as [hf f]. unfold effect, after, on_hfile. cbn. revert hf. induction l as [|g l IH]; intros hf; [reflexivity|]. cbn [map fold_left w_hfile w_file]. apply IH. Qed.
Lemma after_same {B} (l : list (ncfile B -> ncfile B)) : (forall g, In g l -> proper_file g) -> forall f f2, same_file f f2 -> same_file (after l f) (after l f2).
Proof.
  unfold after. induction l as [|g l IH]; intros H f f2 S; [exact S|]. cbn [fold_left]. apply IH; [intros; apply H; now right|]. apply (H g); [now left|exact S].
Qed.
Lemma flat_map_map {B C D} (f : C -> D) (g : B -> list C) l : flat_map (fun x => map f (g x)) l = map f (flat_map g l).
Proof. induction l as [|x l IH]; [reflexivity|]. cbn [flat_map]. rewrite map_app. now rewrite IH. Qed.

(** ** Processes write *)
Definition fine {B} (gs : rank -> list (ncfile B -> ncfile B)) (ranks : list rank) : Prop :=
  (forall r g, In r ranks -> In g (gs r) -> proper_file g) /\ ForallOrdPairs (fun x y => forall g g', In g (gs x) -> In g' (gs y) -> commute_file g g') ranks.
Lemma pairs_weaken {B} (R R' : B -> B -> Prop) l : (forall x y, R x y -> R' x y) -> ForallOrdPairs R l -> ForallOrdPairs R' l.
Proof. intros H. induction 1 as [|x l HF _ IH]; constructor; [|exact IH]. rewrite Forall_forall in *. auto. Qed.
Lemma fine_file gs ranks r g : fine gs ranks -> In r ranks -> In g (map on_file (gs r)) -> proper_fun g.
Proof.
  intros [H _] Ir Ig. apply in_map_iff in Ig. destruct Ig as (g0 & <- & Ig). intros w w' [S1 S2]. split; [exact S1|]. cbn. now apply (H r g0).
Qed.
Lemma fine_hfile gs ranks r g : fine gs ranks -> In r ranks -> In g (map on_hfile (gs r)) -> proper_fun g.
Proof.
  intros [H _] Ir Ig. apply in_map_iff in Ig. destruct Ig as (g0 & <- & Ig). intros w w' [S1 S2]. split; [|exact S2]. cbn. now apply (H r g0).
Qed.
Lemma write_phase (Q : config -> Prop) ranks w (gs : rank -> list (ncfile A -> ncfile A)) (p fin : rank -> prog) f0 :
  fine gs ranks -> (forall r, In r ranks -> acts (fun _ => True) (map on_file (gs r)) (p r) (fin r) /\ waits (fin r)) -> same_file f0 (w_file w) ->
  (forall w', same_file (w_hfile w) (w_hfile w') -> same_file (after (flat_map gs ranks) f0) (w_file w') -> always Q (w', map fin ranks)) ->
  always Q (w, map p ranks).
Proof.
  intros FN H S0 K. apply (phase_ranks (fun _ => True) Q ranks (fun r => map on_file (gs r)) p fin w).
  - intros r Ir. destruct (H r Ir) as [H1 H2]. split; [exact H1|]. split; [exact H2|]. intros g Ig. split; [exact (fine_file gs ranks r g FN Ir Ig)|trivial].
  - destruct FN as [_ FN]. revert FN. apply pairs_weaken. intros x y C g g' Ig Ig'. apply in_map_iff in Ig, Ig'. destruct Ig as (g0 & <- & Ig), Ig' as (g1 & <- & Ig'). intros w0. split; [apply same_file_refl|]. cbn. now apply C.
  - exact I.
  - intros w' _ S. rewrite flat_map_map, effect_file in S. destruct S as [S1 S2]. cbn in S1, S2. apply K; [now apply same_file_sym|]. apply same_file_sym.
    eapply same_file_trans; [exact S2|]. apply after_same; [|now apply same_file_sym]. intros g Ig. apply in_flat_map in Ig. destruct Ig as (r & Ir & Ig). destruct FN as [FN _]. now apply (FN r).
Qed.
Lemma hwrite_phase (Q : config -> Prop) ranks w (gs : rank -> list (ncfile Z -> ncfile Z)) (p fin : rank -> prog) f0 :
  fine gs ranks -> (forall r, In r ranks -> acts (fun _ => True) (map on_hfile (gs r)) (p r) (fin r) /\ waits (fin r)) -> same_file f0 (w_hfile w) ->
  (forall w', same_file (w_file w) (w_file w') -> same_file (after (flat_map gs ranks) f0) (w_hfile w') -> always Q (w', map fin ranks)) ->
  always Q (w, map p ranks).
Proof.
  intros FN H S0 K. apply (phase_ranks (fun _ => True) Q ranks (fun r => map on_hfile (gs r)) p fin w).
  - intros r Ir. destruct (H r Ir) as [H1 H2]. split; [exact H1|]. split; [exact H2|]. intros g Ig. split; [exact (fine_hfile gs ranks r g FN Ir Ig)|trivial].
  - destruct FN as [_ FN]. revert FN. apply pairs_weaken. intros x y C g g' Ig Ig'. apply in_map_iff in Ig, Ig'. destruct Ig as (g0 & <- & Ig), Ig' as (g1 & <- & Ig'). intros w0. split; [|apply same_file_refl]. cbn. now apply C.
  - exact I.
  - intros w' _ S. rewrite flat_map_map, effect_hfile in S. destruct S as [S1 S2]. cbn in S1, S2. apply K; [now apply same_file_sym|]. apply same_file_sym.
    eapply same_file_trans; [exact S1|]. apply after_same; [|now apply same_file_sym]. intros g Ig. apply in_flat_map in Ig. destruct Ig as (r & Ir & Ig). destruct FN as [FN _]. now apply (FN r).
Qed.
(** ** Processes read *)
Lemma read_phase (Q : config -> Prop) ranks w (n : rank -> nat) (p fin : rank -> prog) :
  (forall r, In r ranks -> acts (same w) (repeat (fun w => w) (n r)) (p r) (fin r) /\ waits (fin r)) ->
  (forall w', same w w' -> always Q (w', map fin ranks)) -> always Q (w, map p ranks).
Proof.
  intros H K. apply (phase_ranks (same w) Q ranks (fun r => repeat (fun w => w) (n r)) p fin w).
  - intros r Ir. destruct (H r Ir) as [H1 H2]. split; [exact H1|]. split; [exact H2|]. intros g Ig. apply repeat_spec in Ig. subst g. split; [intros a b S; exact S|auto].
  - clear. induction ranks as [|r ranks IH]; constructor; [|exact IH]. apply Forall_forall. intros y _ g g' Ig Ig'. apply repeat_spec in Ig, Ig'. subst. intros w0. apply same_refl.
  - apply same_refl.
  - intros w' Sw' _. now apply K.
Qed.
Lemma acts_read (I0 : world -> Prop) f p : (forall w, I0 w -> f w = (w, p)) -> acts I0 (repeat (fun w => w) 1) (Act f) p.
Proof. intros H. cbn [repeat]. apply acts_one with (p := p); [exact H|constructor]. Qed.

(** ** The processes and the session *)
Lemma agrees_rank s w ranks i r : agrees s w ranks -> nth_error ranks i = Some r ->
  exists p, nth_error (su_parts (se_setup s)) i = Some p /\ own_part r = p.
Proof.
  intros (_ & _ & L & H) E. destruct (H i r E) as (E1 & _ & E2 & _). destruct (at_length _ (su_parts (se_setup s)) i r L E) as [p Ep].
  exists p. split; [exact Ep|]. unfold own_part. rewrite E1, E2. now apply nth_some.
Qed.
Lemma agrees_some s w ranks : agrees s w ranks -> su_parts (se_setup s) <> [] -> ranks <> [].
Proof. intros (_ & _ & L & _) N Z0. subst ranks. destruct (su_parts (se_setup s)); [contradiction|discriminate]. Qed.
Lemma agrees_in s w ranks r : agrees s w ranks -> In r ranks -> r_mode r = se_mode s /\ r_setup r = se_setup s /\ r_nb r = se_nb s /\ r_read r = se_read s /\ r_written r = se_written s /\ r_indep r = false.
Proof. intros (_ & _ & _ & H) I. apply In_nth_error in I. destruct I as [i I]. destruct (H i r I) as (_ & H1 & H2 & H3 & H4 & H5 & H6 & _). auto 7. Qed.
Lemma agrees_fields s w ranks v h : agrees s w ranks -> length (se_mem s (v_name (sv_var v)) h) = length (su_parts (se_setup s)) ->
  combine (fields_of s v) (se_mem s (v_name (sv_var v)) h) = map (fun r => (pt_field (own_part r) (v_name (sv_var v)), r_mem r (v_name (sv_var v)) h)) ranks.
Proof.
  intros AG L. pose proof AG as (_ & _ & LR & H). apply combine_ranks; [unfold fields_of; rewrite map_length; congruence|congruence|]. intros i r E.
  destruct (agrees_rank s w ranks i r AG E) as (p & Ep & ->). split; [unfold fields_of; now rewrite nth_error_map, Ep|].
  destruct (H i r E) as (_ & _ & _ & _ & _ & _ & _ & _ & HM). rewrite HM. apply some_nth. rewrite L, <- LR. apply nth_error_Some. congruence.
Qed.
Lemma agrees_locals s w ranks v h l : agrees s w ranks -> length (se_mem s (v_name (sv_var v)) h) = length (su_parts (se_setup s)) -> length (se_hidden s l) = length (su_parts (se_setup s)) ->
  combine (combine (fields_of s v) (se_hidden s l)) (se_mem s (v_name (sv_var v)) h) = map (fun r => (pt_field (own_part r) (v_name (sv_var v)), r_pos r l, r_mem r (v_name (sv_var v)) h)) ranks.
Proof.
  intros AG L L2. pose proof AG as (_ & _ & LR & H). apply (combine_ranks ranks (fun r => (pt_field (own_part r) (v_name (sv_var v)), r_pos r l))); [unfold fields_of; rewrite combine_length, map_length, L2, Nat.min_id; congruence|congruence|]. intros i r E.
  assert (LI : (i < length (su_parts (se_setup s)))%nat) by (rewrite <- LR; apply nth_error_Some; congruence).
  destruct (agrees_rank s w ranks i r AG E) as (p & Ep & ->). destruct (H i r E) as (_ & _ & _ & _ & _ & _ & _ & HP & HM). split.
  - apply combine_at. split; [unfold fields_of; now rewrite nth_error_map, Ep|]. rewrite HP. apply some_nth. now rewrite L2.
  - rewrite HM. apply some_nth. now rewrite L.
Qed.
Lemma agrees_subs s w ranks l : agrees s w ranks -> length (se_hidden s l) = length (su_parts (se_setup s)) ->
  combine (subs s) (se_hidden s l) = map (fun r => (pt_sub (own_part r), r_pos r l)) ranks.
Proof.
  intros AG L. pose proof AG as (_ & _ & LR & H). apply combine_ranks; [unfold subs; rewrite map_length; congruence|congruence|]. intros i r E.
  destruct (agrees_rank s w ranks i r AG E) as (p & Ep & ->). split; [unfold subs; now rewrite nth_error_map, Ep|].
  destruct (H i r E) as (_ & _ & _ & _ & _ & _ & _ & HP & _). rewrite HP. apply some_nth. rewrite L, <- LR. apply nth_error_Some. congruence.
Qed.

(** All processes run [p]; then they are as in [s'], and the outcome is [a]. *)
Definition does (p : action A) s s' (a : res unit) : Prop := forall (K : cont A) (Q : config -> Prop),
  (forall w ranks, agrees s' w ranks -> always Q (w, map (fun r => K r a) ranks)) ->
  forall w ranks, agrees s w ranks -> always Q (w, map (fun r => p r K) ranks).
Lemma does_then (p g : action A) s x (f : session -> session * res unit) : does p s (fst x) (snd x) ->
  (snd x = Ok tt -> does g (fst x) (fst (f (fst x))) (snd (f (fst x)))) -> does (pthen p g) s (fst (andthen x f)) (snd (andthen x f)).
Proof.
  intros H1 H2 K Q HK w ranks AG. unfold pthen. apply (H1 (fun r' a => match a with Ok _ => g r' K | _ => K r' a end)); [|exact AG].
  intros w1 ranks1 AG1. unfold andthen in HK. destruct x as [s1 [[]|e|]]; cbn [fst snd] in *.
  - exact (H2 eq_refl K Q HK w1 ranks1 AG1).
  - now apply HK.
  - now apply HK.
Qed.
Lemma does_ret (p : action A) s a : (forall w ranks, agrees s w ranks -> forall r, In r ranks -> forall K, p r K = K r a) -> does p s s a.
Proof.
  intros H K Q HK w ranks AG. rewrite (map_ext_in _ (fun r => K r a)); [now apply HK|]. intros r Ir. exact (H w ranks AG r Ir K).
Qed.
Lemma does_update (p : action A) s s' (up : rank -> rank) a : (forall w ranks, agrees s w ranks -> (forall r, In r ranks -> forall K, p r K = K (up r) a) /\ agrees s' w (map up ranks)) -> does p s s' a.
Proof.
  intros H K Q HK w ranks AG. destruct (H w ranks AG) as [H1 H2]. rewrite (map_ext_in _ (fun r => K (up r) a)) by (intros r Ir; now apply H1).
  specialize (HK w (map up ranks) H2). now rewrite map_map in HK.
Qed.

(** ** Collective transfers *)
Lemma transfer_sync {B} (Q : config -> Prop) (put : bool) name (f : rank -> world -> world * res B) (k : rank -> res B -> prog) w ranks :
  ranks <> [] -> (forall r, In r ranks -> r_indep r = false) ->
  always Q (w, map (fun r => Act (fun w => (fst (f r w), Sync (CTransferred put name) 0 (fun _ => k r (snd (f r w)))))) ranks) ->
  always Q (w, map (fun r => transfer put name r (f r) (k r)) ranks).
Proof.
  intros NE IN H. rewrite (map_ext_in _ (fun r => Sync (CTransfer put name) 0 (fun _ => Act (fun w => (fst (f r w), Sync (CTransferred put name) 0 (fun _ => k r (snd (f r w)))))))).
  2: { intros r Ir. unfold transfer. now rewrite (IN r Ir). }
  now apply (always_sync Q w (CTransfer put name) (fun _ => 0) (fun r => fun _ => Act (fun w => (fst (f r w), Sync (CTransferred put name) 0 (fun _ => k r (snd (f r w))))))).
Qed.
Lemma fine_one {B} v (b : rank -> box) (M : rank -> list B) ranks : (forall r, In r ranks -> puts v (b r) 0 (M r)) ->
  ForallOrdPairs (fun x y => forall n at_, foot v (b x) n at_ -> foot v (b y) n at_ -> False) ranks -> fine (fun r => [put_total v (b r) 0 (M r)]) ranks.
Proof.
  intros H D. split.
  - intros r g Ir [<-|[]] f f2 S. apply put_total_same; [now apply H|exact S].
  - induction D as [|x l HF _ IH]; constructor.
    + rewrite Forall_forall in *. intros y Iy g g' [<-|[]] [<-|[]] f. apply put_total_commute; [apply H; now left|apply H; now right|now apply HF].
    + apply IH. intros r Ir. apply H. now right.
Qed.
Lemma put_phase (Q : config -> Prop) name v (b : rank -> box) (M : rank -> list A) (k : rank -> res unit -> prog) f0 w ranks :
  ranks <> [] -> (forall r, In r ranks -> r_indep r = false /\ r_mode r <> Reading) -> (forall r, In r ranks -> puts v (b r) 0 (M r)) ->
  ForallOrdPairs (fun x y => forall n at_, foot v (b x) n at_ -> foot v (b y) n at_ -> False) ranks -> same_file f0 (w_file w) ->
  (forall w', same_file (w_hfile w) (w_hfile w') -> same_file (fold_left (fun (fl : ncfile A) r => put_total v (b r) 0 (M r) fl) ranks f0) (w_file w') -> always Q (w', map (fun r => k r (Ok tt)) ranks)) ->
  always Q (w, map (fun r => transfer true name r (put_value (r_mode r) v (b r) 0 (M r)) (k r)) ranks).
Proof.
  intros NE IN PU D S0 K. apply transfer_sync; [exact NE|intros r Ir; now apply IN|].
  apply (write_phase Q ranks w (fun r => [put_total v (b r) 0 (M r)]) _ (fun r => Sync (CTransferred true name) 0 (fun _ => k r (Ok tt))) f0).
  - now apply fine_one.
  - intros r Ir. split; [|exact I].
    cbn [map]. apply acts_one with (p := Sync (CTransferred true name) 0 (fun _ => k r (Ok tt))); [|constructor].
    intros w1 _. destruct (IN r Ir) as [_ MR]. pose proof (put_total_ok v (b r) 0 (M r) (w_file w1) (PU r Ir)) as E. unfold put_value. rewrite E. unfold on_file. now destruct (r_mode r).
  - exact S0.
  - intros w' S1 S2. apply (always_sync Q w' (CTransferred true name) (fun _ => 0) (fun r => fun _ => k r (Ok tt))); [exact NE|]. apply K; [exact S1|].
    revert S2. unfold after. clear. revert f0. induction ranks as [|r ranks IH]; intros f0 S2; [exact S2|]. cbn [flat_map app fold_left] in *. now apply IH.
Qed.
Lemma hput_phase (Q : config -> Prop) name v (b : rank -> box) (M : rank -> list Z) (k : rank -> res unit -> prog) f0 w ranks :
  ranks <> [] -> (forall r, In r ranks -> r_indep r = false) -> (forall r, In r ranks -> puts v (b r) 0 (M r)) ->
  ForallOrdPairs (fun x y => forall n at_, foot v (b x) n at_ -> foot v (b y) n at_ -> False) ranks -> same_file f0 (w_hfile w) ->
  (forall w', same_file (w_file w) (w_file w') -> same_file (fold_left (fun (fl : ncfile Z) r => put_total v (b r) 0 (M r) fl) ranks f0) (w_hfile w') -> always Q (w', map (fun r => k r (Ok tt)) ranks)) ->
  always Q (w, map (fun r => transfer true name r (put_position v (b r) (M r)) (k r)) ranks).
Proof.
  intros NE IN PU D S0 K. apply transfer_sync; [exact NE|exact IN|].
  apply (hwrite_phase Q ranks w (fun r => [put_total v (b r) 0 (M r)]) _ (fun r => Sync (CTransferred true name) 0 (fun _ => k r (Ok tt))) f0).
  - now apply fine_one.
  - intros r Ir. split; [|exact I].
    cbn [map]. apply acts_one with (p := Sync (CTransferred true name) 0 (fun _ => k r (Ok tt))); [|constructor].
    intros w1 _. pose proof (put_total_ok v (b r) 0 (M r) (w_hfile w1) (PU r Ir)) as E. unfold put_position. rewrite E. reflexivity.
  - exact S0.
  - intros w' S1 S2. apply (always_sync Q w' (CTransferred true name) (fun _ => 0) (fun r => fun _ => k r (Ok tt))); [exact NE|]. apply K; [exact S1|].
    revert S2. unfold after. clear. revert f0. induction ranks as [|r ranks IH]; intros f0 S2; [exact S2|]. cbn [flat_map app fold_left] in *. now apply IH.
Qed.
(** Transfers that leave the file alone. *)
Lemma get_phase {B} (Q : config -> Prop) put name (f : rank -> world -> world * res B) (out : rank -> res B) (k : rank -> res B -> prog) w ranks :
  ranks <> [] -> (forall r, In r ranks -> r_indep r = false) -> (forall r w', In r ranks -> same w w' -> f r w' = (w', out r)) ->
  (forall w', same w w' -> always Q (w', map (fun r => k r (out r)) ranks)) ->
  always Q (w, map (fun r => transfer put name r (f r) (k r)) ranks).
Proof.
  intros NE IN H K. apply transfer_sync; [exact NE|exact IN|].
  apply (read_phase Q ranks w (fun _ => 1%nat) _ (fun r => Sync (CTransferred put name) 0 (fun _ => k r (out r)))).
  - intros r Ir. split; [|exact I]. apply acts_read. intros w1 S. now rewrite (H r w1 Ir S).
  - intros w' S. apply (always_sync Q w' (CTransferred put name) (fun _ => 0) (fun r => fun _ => k r (out r))); [exact NE|]. now apply K.
Qed.

Lemma agrees_file s w ranks w' f' : agrees s w ranks -> same_file (w_hfile w) (w_hfile w') -> same_file f' (w_file w') -> agrees (with_file s f') w' ranks.
Proof. intros (A1 & A2 & A3 & A4) S1 S2. split; [cbn; eapply same_file_trans; eassumption|]. split; [exact S2|]. split; [exact A3|exact A4]. Qed.
Lemma agrees_same s w ranks w' : agrees s w ranks -> same w w' -> agrees s w' ranks.
Proof. intros (A1 & A2 & A3 & A4) [S1 S2]. split; [eapply same_file_trans; eassumption|]. split; [eapply same_file_trans; eassumption|]. split; [exact A3|exact A4]. Qed.

(** ** Requests of local fields *)
Lemma put_each_acts v buf r (k : cont A) bs : forall p, r_mode r <> Reading -> puts_list v bs p buf ->
  acts (fun _ => True) (map on_file (put_list v bs p buf)) (put_each v bs p buf r k) (Sync CEndIndep 0 (fun _ => k (with_indep false r) (Ok tt))).
Proof.
  induction bs as [|b bs IH]; intros p MR H; cbn [put_list map put_each]; [constructor|]. destruct H as [H1 H2].
  apply acts_one with (p := put_each v bs (p + get_nb_from_shape (b_count b)) buf r k); [|now apply IH].
  intros w _. pose proof (put_total_ok v b p buf (w_file w) H1) as E. unfold put_value. rewrite E. unfold on_file. now destruct (r_mode r).
Qed.
Lemma get_each_acts w v (done : list A -> rank -> rank) r (k : cont A) bs : forall p buf buf', get_list v bs p buf (w_file w) = Ok buf' ->
  acts (same w) (repeat (fun w => w) (length bs)) (get_each v bs p buf done r k) (Sync CEndIndep 0 (fun _ => k (with_indep false (done buf' r)) (Ok tt))).
Proof.
  induction bs as [|b bs IH]; intros p buf buf' H; cbn [get_list length repeat get_each] in *; [injection H as <-; constructor|].
  destruct (get_box v b p buf (w_file w)) as [buf1| |] eqn:E; cbn [bind] in H; try discriminate.
  apply acts_one with (p := get_each v bs (p + get_nb_from_shape (b_count b)) buf1 done r k); [|now apply IH].
  intros w1 [_ S]. rewrite <- (get_box_same v b p buf _ _ S), E. reflexivity.
Qed.
Lemma put_list_in {B} v (buf : list B) bs : forall p g, In g (put_list v bs p buf) -> puts_list v bs p buf -> exists b p', In b bs /\ puts v b p' buf /\ g = put_total v b p' buf.
Proof.
  induction bs as [|b bs IH]; intros p g I H; [destruct I|]. destruct I as [<-|I]; destruct H as [H1 H2]; [exists b, p; split; [now left|auto]|].
  destruct (IH _ _ I H2) as (b' & p' & Ib & H3). exists b', p'. split; [now right|exact H3].
Qed.
Lemma fine_list {B} v (bs : rank -> list box) (M : rank -> list B) ranks : (forall r, In r ranks -> puts_list v (bs r) 0 (M r)) ->
  ForallOrdPairs (fun x y => forall b b' n at_, In b (bs x) -> In b' (bs y) -> foot v b n at_ -> foot v b' n at_ -> False) ranks -> fine (fun r => put_list v (bs r) 0 (M r)) ranks.
Proof.
  intros H D. split.
  - intros r g Ir Ig f f2 S. destruct (put_list_in _ _ _ _ _ Ig (H r Ir)) as (b & p & _ & PU & ->). now apply put_total_same.
  - induction D as [|x l HF _ IH]; constructor.
    + rewrite Forall_forall in *. intros y Iy g g' Ig Ig' f. destruct (put_list_in _ _ _ _ _ Ig (H x (or_introl eq_refl))) as (b & p & Ib & PU & ->). destruct (put_list_in _ _ _ _ _ Ig' (H y (or_intror Iy))) as (b' & p' & Ib' & PU' & ->).
      apply put_total_commute; [exact PU|exact PU'|]. intros n at_. exact (HF y Iy b b' n at_ Ib Ib').
    + apply IH. intros r Ir. apply H. now right.
Qed.
End Phases.
