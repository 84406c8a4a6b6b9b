(** Lemmas on single transfers of a session. *)
From Coq Require Import String Sorting.Sorted.
From Verif Require Import Base CIntModel GridModel GridSpec GridProofs StridedModel LayoutModel LayoutSpec LayoutProofs LayoutProofs2 CommModel FrameModel RegistryModel.
From Verif Require Import NetCDFModel NetCDFSpec NetCDFProofs4 NetCDFProofs5 NetCDFProofs6 NetCDFProofs7 NetCDFProofs8 NetCDFProofs9 NetCDFProofs10 NetCDFProofs11 SessionModel SessionSpec.
Local Open Scope Z_scope.
Local Open Scope list_scope.

(** ** Places in the file *)
Definition at_of (q : quantity) (fr h : Z) (c : list Z) (b : Z) (y : list Z) : list Z :=
  fr :: (match q_hist q with Some _ => [h] | None => [] end) ++ c ++
  (if (zprod (q_comp q) =? 1) && (q_nsub q =? 1) then [] else [b]) ++ y.
Lemma cell_at q f fr h c b y : sane f -> l_comp f = q_comp q -> l_nsub f = q_nsub q ->
  cell false (q_hist q) f fr h c b y = at_of q fr h c b y.
Proof.
  intros (E & _) EC ES. unfold cell, at_of, single. rewrite E, EC, ES. reflexivity.
Qed.

Lemma holds_inj {A} f (m : list A) c q x a a' : holds f m c q x a -> holds f m c q x a' -> a = a'.
Proof. intros (s & E1 & E2) (s' & E1' & E2'). rewrite E1 in E1'. injection E1' as <-. rewrite E2 in E2'. now injection E2'. Qed.

Lemma handle_zero nb : (accessed 0 nb = Ok 0 /\ 0 < nb) \/ (handle_frame 0 nb = Err FileIOError /\ nb <= 0).
Proof. unfold accessed, handle_frame. cbn. destruct (Z.leb_spec nb 0); cbn; auto. Qed.
Lemma accessed_zero k nb fr : accessed k nb = Ok fr -> accessed 0 nb = Ok 0.
Proof.
  intros E. destruct (handle_zero nb) as [[H _]|[_ H]]; [exact H|exfalso].
  unfold accessed, handle_frame in E. destruct (Z.ltb_spec k 0); cbn in E.
  - destruct (Z.leb_spec nb (nb + k)); [discriminate|]. cbn in E. destruct (Z.ltb_spec (nb + k) 0); [discriminate|]. lia.
  - destruct (Z.leb_spec nb k); [discriminate|]. cbn in E. lia.
Qed.

(** Memory keeps its length. *)
Lemma wr_len {A} (l : list A) i x l' : wr l i x = Ok l' -> length l' = length l.
Proof. unfold wr. destruct (_ || _); [discriminate|]. intros E. apply Ok_inj in E. subst l'. apply upd_length. Qed.
Lemma get_loop_len {A} g start stride imap p is : forall (buf buf' : list A), get_loop g start stride imap p is buf = Ok buf' -> length buf' = length buf.
Proof.
  induction is as [|i is IH]; intros buf buf' E; cbn [get_loop] in E; [apply Ok_inj in E; now subst|].
  apply NetCDFProofs4.bind_ok in E. destruct E as (b & E1 & E2). apply IH in E2. apply wr_len in E1. lia.
Qed.
Lemma get_varm_len {A} v start count stride imap file p (buf buf' : list A) : get_varm v start count stride imap file p buf = Ok buf' -> length buf' = length buf.
Proof.
  unfold get_varm. destruct (negb _); [discriminate|]. destruct (negb _); [discriminate|]. apply get_loop_len.
Qed.
Lemma read_global_len {A} nb k v h f file (m m' : list A) : read_global nb k v h f file m = Ok m' -> length m' = length m.
Proof.
  unfold read_global. intros E. do 5 (apply NetCDFProofs4.bind_ok in E; destruct E as (? & _ & E)). now apply get_varm_len in E.
Qed.
Lemma get_requests_len {A} v f fr h stride imap reqs file : forall p (b b' : list A), get_requests v f fr h stride imap reqs file p b = Ok b' -> length b' = length b.
Proof.
  induction reqs as [|o reqs IH]; intros p b b' E; cbn [get_requests] in E; [apply Ok_inj in E; now subst|].
  apply NetCDFProofs4.bind_ok in E. destruct E as (x & _ & E). apply NetCDFProofs4.bind_ok in E. destruct E as (y & _ & E).
  apply NetCDFProofs4.bind_ok in E. destruct E as (z & E1 & E). apply get_varm_len in E1. apply IH in E. lia.
Qed.
Lemma read_local_len {A} nb k v h f px file (m m' : list A) : read_local nb k v h f px file m = Ok m' -> length m' = length m.
Proof.
  unfold read_local. intros E. apply NetCDFProofs4.bind_ok in E. destruct E as (fr & _ & E). destruct (fr <? 0); [discriminate|].
  do 2 (apply NetCDFProofs4.bind_ok in E; destruct E as (? & _ & E)). now apply get_requests_len in E.
Qed.

(** Transfers of an inexistent frame fail. *)
Lemma accessed_bad k nb : (exists fr, accessed k nb = Ok fr) \/ accessed k nb = Err FileIOError.
Proof.
  unfold accessed, handle_frame. destruct (nb <=? _); cbn; [now right|]. destruct (_ <? 0); [now right|]. left. eauto.
Qed.
Lemma write_global_bad {A} nb k v h f (m : list A) file : accessed k nb = Err FileIOError -> write_global nb k v h f m file = Err FileIOError.
Proof.
  unfold accessed, write_global. destruct (handle_frame k nb) as [x| |]; cbn; try discriminate; [|congruence].
  unfold get_start_global. destruct (x <? 0); [reflexivity|discriminate].
Qed.
Lemma read_global_bad {A} nb k v h f (m : list A) file : accessed k nb = Err FileIOError -> read_global nb k v h f file m = Err FileIOError.
Proof.
  unfold accessed, read_global. destruct (handle_frame k nb) as [x| |]; cbn; try discriminate; [|congruence].
  unfold get_start_global. destruct (x <? 0); [reflexivity|discriminate].
Qed.
Lemma write_local_bad {A} nb k v h f px (m : list A) file : accessed k nb = Err FileIOError -> write_local nb k v h f px m file = Err FileIOError.
Proof.
  unfold accessed, write_local. destruct (handle_frame k nb) as [x| |]; cbn; try discriminate; [|congruence].
  destruct (x <? 0); [reflexivity|discriminate].
Qed.
Lemma read_local_bad {A} nb k v h f px (m : list A) file : accessed k nb = Err FileIOError -> read_local nb k v h f px file m = Err FileIOError.
Proof.
  unfold accessed, read_local. destruct (handle_frame k nb) as [x| |]; cbn; try discriminate; [|congruence].
  destruct (x <? 0); [reflexivity|discriminate].
Qed.
Lemma write_ranks_bad {A} nb k v h (ranks : list (nfield * list A)) file : accessed k nb = Err FileIOError -> ranks <> [] -> write_ranks nb k v h ranks file = Err FileIOError.
Proof. intros E N. destruct ranks as [|[f m] r]; [contradiction|]. cbn [write_ranks]. now rewrite write_global_bad. Qed.
Lemma write_local_ranks_bad {A} nb k v h (ranks : list (nfield * list Z * list A)) file : accessed k nb = Err FileIOError -> ranks <> [] -> write_local_ranks nb k v h ranks file = Err FileIOError.
Proof. intros E N. destruct ranks as [|[[f px] m] r]; [contradiction|]. cbn [write_local_ranks]. now rewrite write_local_bad. Qed.

(** Several results. *)
Lemma mapm_at {B C} (g : B -> res C) l : forall r, mapm g l = Ok r -> length r = length l /\
  forall i x, nth_error l i = Some x -> exists y, nth_error r i = Some y /\ g x = Ok y.
Proof.
  induction l as [|x l IH]; intros r E; cbn [mapm] in E.
  - apply Ok_inj in E. subst r. split; [reflexivity|]. intros [|i] x E; discriminate.
  - apply NetCDFProofs4.bind_ok in E. destruct E as (y & E1 & E). apply NetCDFProofs4.bind_ok in E. destruct E as (ys & E2 & E). apply Ok_inj in E. subst r.
    destruct (IH ys E2) as [L N]. split; [cbn; lia|]. intros [|i] z Ez; [|now apply N]. injection Ez as <-. exists y. split; [reflexivity|exact E1].
Qed.
Lemma mapm_ok {B C} (g : B -> res C) l : (forall x, In x l -> exists y, g x = Ok y) -> exists r, mapm g l = Ok r.
Proof.
  induction l as [|x l IH]; intros H; cbn [mapm]; [eauto|]. destruct (H x (or_introl eq_refl)) as [y ->]. destruct IH as [r ->]; [intros; apply H; now right|]. cbn. eauto.
Qed.

Lemma nth_lengths {B C} (a : list B) (b : list C) i x : length b = length a -> nth_error a i = Some x -> exists y, nth_error b i = Some y.
Proof.
  intros L E. destruct (nth_error b i) as [y|] eqn:Q; [eauto|]. apply nth_error_None in Q. assert (i < length a)%nat by (apply nth_error_Some; congruence). lia.
Qed.
Lemma combine_nonempty {B C} (a : list B) (b : list C) : a <> [] -> length b = length a -> combine a b <> [].
Proof. destruct a, b; try discriminate; contradiction. Qed.

(** ** Parts of the domain *)
Lemma owns_dom p x : pixel_field p -> owns p x -> in_shape (nf_dom p) x.
Proof.
  intros (_ & _ & _ & _ & D) [L H]. destruct D as (_ & _ & L1 & L2 & B & _). split; [congruence|]. intros i Hi.
  specialize (B i Hi). specialize (H i ltac:(congruence)). lia.
Qed.
Lemma distributed_len {A} f (m m' : list A) : length m' = length m -> distributed f m -> distributed f m'.
Proof. unfold distributed. intros ->. tauto. Qed.
Lemma local_field_len {A} f n (m m' : list A) : length m' = length m -> local_field f n m -> local_field f n m'.
Proof. unfold local_field. intros ->. tauto. Qed.
Lemma sized_len {A} P u (mem mem' : string -> Z -> list (list A)) : sized P u mem ->
  (forall n h, length (mem' n h) = length (mem n h) /\ forall i m, nth_error (mem n h) i = Some m -> exists m', nth_error (mem' n h) i = Some m' /\ length m' = length m) ->
  sized P u mem'.
Proof.
  intros S K q h Iq E. destruct (S q h Iq E) as [L H]. destruct (K (q_name q) h) as [L' H']. split; [congruence|].
  intros i p m Ep Em. destruct (nth_lengths _ (mem (q_name q) h) i m (eq_sym L') Em) as [m0 E0]. destruct (H' i m0 E0) as (m1 & E1 & Lm).
  rewrite Em in E1. injection E1 as <-. specialize (H i p m0 Ep E0). destruct (q_local q); [now apply (local_field_len _ _ m0)|now apply (distributed_len _ m0)].
Qed.

Lemma find_unique (vs : list svar) v : NoDup (map (fun v => v_name (sv_var v)) vs) -> In v vs -> get_variable vs (v_name (sv_var v)) = Some v.
Proof.
  unfold get_variable. induction vs as [|a vs IH]; intros ND I; [destruct I|]. cbn [map find] in *. apply NoDup_cons_iff in ND. destruct ND as [N1 N2].
  destruct I as [->|I]; [now rewrite String.eqb_refl|]. destruct (String.eqb_spec (v_name (sv_var a)) (v_name (sv_var v))) as [E|E]; [|now apply IH].
  exfalso. apply N1. rewrite E. apply in_map_iff. eauto.
Qed.

(** ** The variable of a quantity *)
Record var_of (P : plan) (u : setup) (q : quantity) (v : ncvar) : Prop := {
  vo_in : In (mk_svar v (q_local q)) (su_vars u);
  vo_parts : forall p, In p (su_parts u) -> shaped P q (pt_field p (q_name q)) /\
       match q_local q with
       | None => registered (q_hist q) (q_name q) (pt_field p (q_name q)) v /\ nf_dom (pt_field p (q_name q)) = pl_dom P
       | Some l => registered_local (pl_total P l) (q_hist q) (q_name q) (pt_field p (q_name q)) v
       end;
  vo_name : v_name v = q_name q;
  vo_hist : v_hist v = q_hist q;
  vo_comp : Z.of_nat (length (q_comp q)) <= 2 ^ 31;
  vo_nonneg : forall n, q_hist q = Some n -> 0 <= n;
  vo_coll : forall l, q_local q = Some l -> In l (pl_colls P)
}.
Lemma fits_var P u q : fits P u -> In q (pl_quantities P) -> exists v, var_of P u q v.
Proof.
  intros F Iq. destruct F as (_ & F & _ & NE & _). destruct (F q Iq) as (H1 & H2 & H3 & v & I & H4). exists v.
  destruct (su_parts u) as [|p0 r] eqn:EP; [contradiction|]. rewrite <- EP in *. assert (I0 : In p0 (su_parts u)) by (rewrite EP; now left).
  destruct (H4 p0 I0) as [_ R]. assert (X : v_name v = q_name q /\ v_hist v = q_hist q).
  { destruct (q_local q) as [l|].
    - destruct R as [px E]. apply register_local_inv in E. destruct E as [(-> & _) _]. split; reflexivity.
    - destruct R as [(seen & s & E) _]. apply NetCDFProofs4.register_global_inv in E. destruct E as [(-> & _) _]. split; reflexivity. }
  destruct X as [X1 X2]. constructor; assumption.
Qed.
Lemma var_found P u q v : fits P u -> var_of P u q v -> get_variable (su_vars u) (q_name q) = Some (mk_svar v (q_local q)).
Proof.
  intros (ND & _) V. rewrite <- (vo_name _ _ _ _ V). apply (find_unique (su_vars u) (mk_svar v (q_local q)) ND). apply (vo_in _ _ _ _ V).
Qed.
Lemma entry_entry q h : entry_of q h -> entry (q_hist q) h.
Proof. unfold entry_of, entry. destruct (q_hist q); [intros H n E; injection E as <-; exact H|discriminate]. Qed.
