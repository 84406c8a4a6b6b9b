(** Accesses to the file: when they do not depend on their order. *)
From Coq Require Import String.
From Verif Require Import Base CIntModel GridModel GridSpec StridedModel LayoutModel LayoutSpec LayoutProofs CommModel FrameModel NetCDFModel NetCDFSpec NetCDFProofs NetCDFProofs2 NetCDFProofs3 NetCDFProofs4 NetCDFProofs5 NetCDFProofs6 NetCDFProofs9 NetCDFProofs10.
From Verif Require Import SessionModel SessionSpec ParModel ParSpec ParProofs.
Local Open Scope Z_scope.
Local Open Scope list_scope.

(** ** [put_varm] *)
Section Put.
Context {B : Type}.
Implicit Types (f : ncfile B) (buf : list B) (b : box).

Lemma put_loop_any name start stride imap p buf is : forall (g g' : string -> list Z -> B), put_loop name start stride imap p buf is g = Ok g' ->
  forall g2, exists g2', put_loop name start stride imap p buf is g2 = Ok g2'.
Proof.
  induction is as [|i is IH]; intros g g' E g2; [eexists; reflexivity|]. cbn [put_loop] in *. destruct (rd buf (p + linear_index i imap)) as [x| |]; try discriminate. cbn [bind] in *. exact (IH _ _ E _).
Qed.
Lemma put_loop_at name start stride imap p buf is n at_ : forall (g g' g2 g2' : string -> list Z -> B), put_loop name start stride imap p buf is g = Ok g' ->
  put_loop name start stride imap p buf is g2 = Ok g2' -> g n at_ = g2 n at_ -> g' n at_ = g2' n at_.
Proof.
  induction is as [|i is IH]; intros g g' g2 g2' E E2 H; cbn [put_loop] in *; [now injection E as <-; injection E2 as <-|].
  destruct (rd buf (p + linear_index i imap)) as [x| |]; try discriminate. cbn [bind] in *. apply (IH _ _ _ _ E E2). unfold set_cell. now rewrite H.
Qed.
Lemma put_loop_outside name start stride imap p buf is n at_ : (n <> name \/ forall i, In i is -> at_ <> place_of start stride i) ->
  forall (g g' : string -> list Z -> B), put_loop name start stride imap p buf is g = Ok g' -> g' n at_ = g n at_.
Proof.
  intros H. assert (HH : n <> name \/ forall i, In i is -> at_ <> place_of start stride i) by exact H. clear H. revert HH.
  induction is as [|i is IH]; intros HH g g' E; cbn [put_loop] in *; [now injection E as <-|].
  destruct (rd buf (p + linear_index i imap)) as [x| |]; try discriminate. cbn [bind] in *. rewrite (IH ltac:(destruct HH as [HH|HH]; [now left|right; intros j J; apply HH; now right]) _ _ E).
  apply set_cell_other. destruct HH as [HH|HH]; [now left|right; apply HH; now left].
Qed.

(** The transfer succeeds, whatever the file holds. *)
Definition puts v b p buf : Prop := forall f, exists f', put_box v b p buf f = Ok f'.
Definition put_total v b p buf f : ncfile B := match put_box v b p buf f with Ok f' => f' | _ => f end.
Definition foot v b (n : string) (at_ : list Z) : Prop :=
  n = v_name v /\ In at_ (map (place_of (b_start b) (b_stride b)) (indices (b_count b))).

Lemma put_box_puts v b p buf f f' : put_box v b p buf f = Ok f' -> puts v b p buf.
Proof.
  unfold puts, put_box, put_varm. destruct (negb _); [discriminate|]. destruct (negb _); [discriminate|]. intros E f2.
  destruct (put_loop (v_name v) (b_start b) (b_stride b) (b_imap b) p buf (indices (b_count b)) (cells f)) as [g| |] eqn:EL; try discriminate.
  destruct (put_loop_any _ _ _ _ _ _ _ _ _ EL (cells f2)) as [g2 E2]. rewrite E2. cbn [bind]. eauto.
Qed.
Lemma put_total_ok v b p buf f : puts v b p buf -> put_box v b p buf f = Ok (put_total v b p buf f).
Proof. intros H. unfold put_total. destruct (H f) as [f' ->]. reflexivity. Qed.
Lemma put_total_recs v b p buf f : puts v b p buf -> recs (put_total v b p buf f) = grown v (b_start b) (recs f).
Proof.
  intros H. pose proof (put_total_ok v b p buf f H) as E. revert E. generalize (put_total v b p buf f). intros f' E. unfold put_box, put_varm in E.
  destruct (negb _); [discriminate|]. destruct (negb _); [discriminate|]. destruct (put_loop _ _ _ _ _ _ _ _); try discriminate. cbn [bind] in E. now injection E as <-.
Qed.
Lemma put_total_loop v b p buf f : puts v b p buf -> put_loop (v_name v) (b_start b) (b_stride b) (b_imap b) p buf (indices (b_count b)) (cells f) = Ok (cells (put_total v b p buf f)).
Proof.
  intros H. pose proof (put_total_ok v b p buf f H) as E. revert E. generalize (put_total v b p buf f). intros f' E. unfold put_box, put_varm in E.
  destruct (negb _); [discriminate|]. destruct (negb _); [discriminate|]. destruct (put_loop _ _ _ _ _ _ _ _); try discriminate. cbn [bind] in E. now injection E as <-.
Qed.
Lemma put_total_at v b p buf f f2 n at_ : puts v b p buf -> cells f n at_ = cells f2 n at_ -> cells (put_total v b p buf f) n at_ = cells (put_total v b p buf f2) n at_.
Proof. intros H E. exact (put_loop_at _ _ _ _ _ _ _ _ _ _ _ _ _ (put_total_loop v b p buf f H) (put_total_loop v b p buf f2 H) E). Qed.
Lemma put_total_outside v b p buf f n at_ : puts v b p buf -> ~ foot v b n at_ -> cells (put_total v b p buf f) n at_ = cells f n at_.
Proof.
  intros H N. apply (put_loop_outside (v_name v) (b_start b) (b_stride b) (b_imap b) p buf (indices (b_count b)) n at_); [|exact (put_total_loop v b p buf f H)].
  destruct (String.string_dec n (v_name v)) as [E|E]; [right|now left]. intros i I E2. apply N. split; [exact E|]. apply in_map_iff. eauto.
Qed.
Lemma put_total_same v b p buf f f2 : puts v b p buf -> same_file f f2 -> same_file (put_total v b p buf f) (put_total v b p buf f2).
Proof.
  intros H [H1 H2]. split; [rewrite !put_total_recs by exact H; now rewrite H1|]. intros n i. apply put_total_at; [exact H|apply H2].
Qed.
Lemma foot_dec v b n at_ : {foot v b n at_} + {~ foot v b n at_}.
Proof.
  unfold foot. destruct (String.string_dec n (v_name v)) as [->|N]; [|right; intros [E _]; contradiction].
  destruct (in_dec (list_eq_dec Z.eq_dec) at_ (map (place_of (b_start b) (b_stride b)) (indices (b_count b)))) as [I|I]; [left; auto|right; intros [_ J]; contradiction].
Qed.
Lemma grown_comm v a c n : grown v a (grown v c n) = grown v c (grown v a n).
Proof.
  unfold grown. destruct (v_dims v) as [|d ds]; [reflexivity|]. destruct a as [|x a], c as [|y c]; try reflexivity. destruct (base_is d "frame"); [lia|reflexivity].
Qed.
Lemma put_total_commute v b b' p p' buf buf' f : puts v b p buf -> puts v b' p' buf' -> (forall n at_, foot v b n at_ -> foot v b' n at_ -> False) ->
  same_file (put_total v b p buf (put_total v b' p' buf' f)) (put_total v b' p' buf' (put_total v b p buf f)).
Proof.
  intros H H' D. split; [rewrite !put_total_recs by assumption; apply grown_comm|]. intros n i. destruct (foot_dec v b n i) as [F|F].
  - assert (F' : ~ foot v b' n i) by (intros F'; exact (D n i F F')). rewrite (put_total_outside v b' p' buf' _ n i H' F').
    apply put_total_at; [exact H|]. now apply put_total_outside.
  - rewrite (put_total_outside v b p buf _ n i H F). apply put_total_at; [exact H'|]. symmetry. now apply put_total_outside.
Qed.

(** ** [get_varm] *)
Lemma get_loop_same start stride imap p is : forall (g g2 : list Z -> B) buf, (forall i, g i = g2 i) -> get_loop g start stride imap p is buf = get_loop g2 start stride imap p is buf.
Proof.
  induction is as [|i is IH]; intros g g2 buf H; [reflexivity|]. cbn [get_loop]. rewrite H. destruct (wr buf (p + linear_index i imap) (g2 (place_of start stride i))) as [b| |]; try reflexivity. cbn [bind]. now apply IH.
Qed.
Lemma get_box_same v b p buf f f2 : same_file f f2 -> get_box v b p buf f = get_box v b p buf f2.
Proof.
  intros [H1 H2]. unfold get_box, get_varm. rewrite H1. destruct (negb _); [reflexivity|]. destruct (negb _); [reflexivity|]. apply get_loop_same. intros i. apply H2.
Qed.
End Put.

(** ** Global fields *)
Section Global.
Context {B : Type}.
Implicit Types (f : nfield) (m : list B) (file : ncfile B).

Definition no_box : box := mk_box [] [] [] [].
Definition the_box (r : res box) : box := match r with Ok b => b | _ => no_box end.
Lemma write_global_box nb k v h f m file : write_global nb k v h f m file = let! b := global_box nb k v h f in put_box v b 0 m file.
Proof.
  unfold write_global, global_box. destruct (handle_frame k nb) as [fr| |]; [|reflexivity|reflexivity]. cbn [bind].
  destruct (get_start_global v f fr h); [|reflexivity|reflexivity]. cbn [bind]. destruct (get_count_global v f); [|reflexivity|reflexivity]. cbn [bind].
  destruct (get_nc_stride v); [|reflexivity|reflexivity]. cbn [bind]. destruct (get_nc_imap v f); reflexivity.
Qed.
Lemma read_global_box nb k v h f m file : read_global nb k v h f file m = let! b := global_box nb k v h f in get_box v b 0 m file.
Proof.
  unfold read_global, global_box. destruct (handle_frame k nb) as [fr| |]; [|reflexivity|reflexivity]. cbn [bind].
  destruct (get_start_global v f fr h); [|reflexivity|reflexivity]. cbn [bind]. destruct (get_count_global v f); [|reflexivity|reflexivity]. cbn [bind].
  destruct (get_nc_stride v); [|reflexivity|reflexivity]. cbn [bind]. destruct (get_nc_imap v f); reflexivity.
Qed.
Lemma global_box_bad nb k v h f : accessed k nb = Err FileIOError -> global_box nb k v h f = Err FileIOError.
Proof.
  unfold accessed, global_box. destruct (handle_frame k nb) as [fr|e|]; cbn [bind]; [|intros E; now injection E as ->|discriminate].
  unfold get_start_global. destruct (fr <? 0); [reflexivity|discriminate].
Qed.

Lemma write_ranks_boxes {R} nb k v h (F : R -> nfield) (M : R -> list B) rs : forall file file', write_ranks nb k v h (map (fun r => (F r, M r)) rs) file = Ok file' ->
  (forall r, In r rs -> exists b, global_box nb k v h (F r) = Ok b /\ puts v b 0 (M r)) /\
  file' = fold_left (fun (fl : ncfile B) r => put_total v (the_box (global_box nb k v h (F r))) 0 (M r) fl) rs file.
Proof.
  induction rs as [|r rs IH]; intros file file' E; cbn [map write_ranks] in E; [injection E as <-; split; [intros r []|reflexivity]|].
  rewrite write_global_box in E. destruct (global_box nb k v h (F r)) as [b| |] eqn:EB; cbn [bind] in E; try discriminate.
  destruct (put_box v b 0 (M r) file) as [file1| |] eqn:EP; cbn [bind] in E; try discriminate. destruct (IH file1 file' E) as [H1 H2]. split.
  - intros r' [<-|I]; [|now apply H1]. exists b. split; [exact EB|]. exact (put_box_puts _ _ _ _ _ _ EP).
  - cbn [fold_left]. rewrite EB. cbn [the_box]. unfold put_total at 2. rewrite EP. exact H2.
Qed.

Lemma global_foot hidden hist name f v nb k fr h m b n at_ : ready hidden hist name v f m -> accessed k nb = Ok fr ->
  global_box nb k v h f = Ok b -> foot v b n at_ -> exists c q x, indexes (nf_lay f) c q x /\ at_ = target hidden hist f h fr c q x.
Proof.
  intros (R & HH & N1 & D) AC E [_ I]. destruct (accessed_inv _ _ _ AC) as [HF F0]. pose proof D as (Sn & _ & L1 & L2 & _). unfold global_box in E. rewrite HF in E. cbn [bind] in E.
  rewrite (start_vector _ _ _ _ _ R) in E by assumption. cbn [bind] in E. rewrite (count_vector _ _ _ _ _ R) in E by assumption. cbn [bind] in E. rewrite (stride_vector _ _ _ _ _ R) in E. cbn [bind] in E.
  destruct (get_nc_imap v f) as [im| |]; try discriminate. cbn [bind] in E. injection E as <-. cbn [b_start b_stride b_count] in I.
  apply in_map_iff in I. destruct I as (i & <- & I). apply in_indices in I. apply (box_index hidden hist _ i Sn) in I. destruct I as (c & q & x & X & ->).
  exists c, q, x. split; [exact X|]. rewrite <- L1. now rewrite place_cell by (congruence || exact X).
Qed.
Lemma global_disjoint hidden hist name f f' v nb k fr h m m' b b' n at_ : ready hidden hist name v f m -> ready hidden hist name v f' m' -> accessed k nb = Ok fr ->
  same_array f f' -> disjoint f f' -> global_box nb k v h f = Ok b -> global_box nb k v h f' = Ok b' -> foot v b n at_ -> foot v b' n at_ -> False.
Proof.
  intros RD RD' AC SS DJ E E' I I'. destruct (global_foot _ _ _ _ _ _ _ _ _ _ _ _ _ RD AC E I) as (c & q & x & X & Q). destruct (global_foot _ _ _ _ _ _ _ _ _ _ _ _ _ RD' AC E' I') as (c' & q' & x' & X' & Q').
  destruct RD as (_ & _ & _ & D), RD' as (_ & _ & _ & D'). pose proof D as (S1 & _ & L1 & L2 & _). pose proof D' as (S2 & _ & L1' & L2' & _).
  rewrite Q in Q'. unfold target in Q'. apply cell_inj in Q'.
  - destruct Q' as (_ & _ & _ & _ & Q'). apply (DJ (plus (nf_loc f) x)); [apply owns_plus; [congruence|apply X]|]. rewrite Q'. apply owns_plus; [congruence|apply X'].
  - destruct X as (X & _), X' as (X' & _). apply in_shape_length in X, X'. destruct SS as (SS & _). congruence.
  - now apply same_single.
Qed.
End Global.

(** ** Local fields *)
Section Local.
Context {B : Type}.
Implicit Types (f : nfield) (m : list B) (file : ncfile B).

(** The accesses for the requests, one after the other. *)
Fixpoint put_list (v : ncvar) (bs : list box) (p : Z) (buf : list B) : list (ncfile B -> ncfile B) :=
  match bs with
  | [] => []
  | b :: bs' => put_total v b p buf :: put_list v bs' (p + get_nb_from_shape (b_count b)) buf
  end.
Fixpoint puts_list (v : ncvar) (bs : list box) (p : Z) (buf : list B) : Prop :=
  match bs with
  | [] => True
  | b :: bs' => puts v b p buf /\ puts_list v bs' (p + get_nb_from_shape (b_count b)) buf
  end.
Definition the_boxes (r : res (list box)) : list box := match r with Ok b => b | _ => [] end.
Definition after (gs : list (ncfile B -> ncfile B)) file : ncfile B := fold_left (fun (fl : ncfile B) g => g fl) gs file.

Lemma put_requests_boxes v f fr h stride imap buf os : forall p file file', put_requests v f fr h stride imap os p buf file = Ok file' ->
  exists bs, mapm (request_box v f fr h stride imap) os = Ok bs /\ puts_list v bs p buf /\ file' = after (put_list v bs p buf) file.
Proof.
  induction os as [|o os IH]; intros p file file' E; cbn [put_requests] in E; [injection E as <-; exists []; repeat split|].
  destruct (mapm (start_local1 v fr h o) (v_dims v)) as [start| |] eqn:ES; cbn [bind] in E; try discriminate. destruct (mapm (count_local1 f) (v_dims v)) as [count| |] eqn:EC; cbn [bind] in E; try discriminate.
  destruct (put_varm v start count stride imap p buf file) as [file1| |] eqn:EP; cbn [bind] in E; try discriminate. destruct (IH _ _ _ E) as (bs & E1 & H1 & H2).
  assert (ER : request_box v f fr h stride imap o = Ok (mk_box start count stride imap)) by (unfold request_box; rewrite ES; cbn [bind]; rewrite EC; reflexivity).
  exists (mk_box start count stride imap :: bs). cbn [mapm]. rewrite ER. cbn [bind]. rewrite E1. cbn [bind]. split; [reflexivity|]. cbn [puts_list put_list b_count]. split.
  - split; [|exact H1]. exact (put_box_puts v (mk_box start count stride imap) p buf file file1 EP).
  - unfold after. cbn [fold_left]. unfold put_total at 1. unfold put_box. cbn [b_start b_count b_stride b_imap]. rewrite EP. exact H2.
Qed.
Lemma write_local_boxes nb k v h f px m file file' : write_local nb k v h f px m file = Ok file' ->
  exists bs, request_boxes nb k v h f px = Ok bs /\ puts_list v bs 0 m /\ file' = after (put_list v bs 0 m) file.
Proof.
  unfold write_local, request_boxes. intros E. destruct (handle_frame k nb) as [fr| |]; cbn [bind] in *; try discriminate. destruct (fr <? 0); [discriminate|].
  destruct (get_nc_stride v) as [st| |]; cbn [bind] in *; try discriminate. destruct (get_nc_imap v f) as [im| |]; cbn [bind] in *; try discriminate. now apply put_requests_boxes.
Qed.
Lemma write_local_ranks_boxes {R} nb k v h (F : R -> nfield) (PX : R -> list Z) (M : R -> list B) rs : forall file file', write_local_ranks nb k v h (map (fun r => (F r, PX r, M r)) rs) file = Ok file' ->
  (forall r, In r rs -> exists bs, request_boxes nb k v h (F r) (PX r) = Ok bs /\ puts_list v bs 0 (M r)) /\
  file' = after (flat_map (fun r => put_list v (the_boxes (request_boxes nb k v h (F r) (PX r))) 0 (M r)) rs) file.
Proof.
  induction rs as [|r rs IH]; intros file file' E; cbn [map write_local_ranks] in E; [injection E as <-; split; [intros r []|reflexivity]|].
  destruct (write_local nb k v h (F r) (PX r) (M r) file) as [file1| |] eqn:EW; cbn [bind] in E; try discriminate. destruct (write_local_boxes _ _ _ _ _ _ _ _ _ EW) as (bs & EB & HP & HF).
  destruct (IH file1 file' E) as [H1 H2]. split.
  - intros r' [<-|I]; [|now apply H1]. eauto.
  - cbn [flat_map]. unfold after in *. rewrite fold_left_app. rewrite EB. cbn [the_boxes]. rewrite <- HF. exact H2.
Qed.
Lemma request_boxes_bad nb k v h f px : accessed k nb = Err FileIOError -> request_boxes nb k v h f px = Err FileIOError.
Proof.
  unfold accessed, request_boxes. destruct (handle_frame k nb) as [fr|e|]; cbn [bind]; [|intros E; now injection E as ->|discriminate]. now destruct (fr <? 0).
Qed.

Fixpoint get_list (v : ncvar) (bs : list box) (p : Z) (buf : list B) file : res (list B) :=
  match bs with
  | [] => Ok buf
  | b :: bs' => let! buf' := get_box v b p buf file in get_list v bs' (p + get_nb_from_shape (b_count b)) buf' file
  end.
Lemma get_requests_boxes v f fr h stride imap file os : forall p buf buf', get_requests v f fr h stride imap os file p buf = Ok buf' ->
  exists bs, mapm (request_box v f fr h stride imap) os = Ok bs /\ get_list v bs p buf file = Ok buf'.
Proof.
  induction os as [|o os IH]; intros p buf buf' E; cbn [get_requests] in E; [injection E as <-; exists []; repeat split|].
  destruct (mapm (start_local1 v fr h o) (v_dims v)) as [start| |] eqn:ES; cbn [bind] in E; try discriminate. destruct (mapm (count_local1 f) (v_dims v)) as [count| |] eqn:EC; cbn [bind] in E; try discriminate.
  destruct (get_varm v start count stride imap file p buf) as [buf1| |] eqn:EP; cbn [bind] in E; try discriminate. destruct (IH _ _ _ E) as (bs & E1 & H1).
  assert (ER : request_box v f fr h stride imap o = Ok (mk_box start count stride imap)) by (unfold request_box; rewrite ES; cbn [bind]; rewrite EC; reflexivity).
  exists (mk_box start count stride imap :: bs). cbn [mapm]. rewrite ER. cbn [bind]. rewrite E1. cbn [bind]. split; [reflexivity|]. cbn [get_list b_count]. unfold get_box. cbn [b_start b_count b_stride b_imap]. rewrite EP. exact H1.
Qed.
Lemma read_local_boxes nb k v h f px m file m' : read_local nb k v h f px file m = Ok m' ->
  exists bs, request_boxes nb k v h f px = Ok bs /\ get_list v bs 0 m file = Ok m'.
Proof.
  unfold read_local, request_boxes. intros E. destruct (handle_frame k nb) as [fr| |]; cbn [bind] in *; try discriminate. destruct (fr <? 0); [discriminate|].
  destruct (get_nc_stride v) as [st| |]; cbn [bind] in *; try discriminate. destruct (get_nc_imap v f) as [im| |]; cbn [bind] in *; try discriminate. now apply get_requests_boxes.
Qed.

Lemma mapm_in {C D} (g : C -> res D) l : forall l' y, mapm g l = Ok l' -> In y l' -> exists x, In x l /\ g x = Ok y.
Proof.
  induction l as [|x l IH]; intros l' y E I; cbn [mapm] in E; [injection E as <-; contradiction|].
  destruct (g x) as [z| |] eqn:EX; cbn [bind] in E; try discriminate. destruct (mapm g l) as [zs| |]; cbn [bind] in E; try discriminate. injection E as <-.
  destruct I as [<-|I]; [exists x; split; [now left|exact EX]|]. destruct (IH zs y eq_refl I) as (x' & I' & E'). exists x'. split; [now right|exact E'].
Qed.
Lemma local_foot total hist name f v c m nb k fr h px bs b n at_ : registered_local total hist name f v -> local_field f c m -> 0 < total -> Z.of_nat (length (l_comp (nf_lay f))) <= 2 ^ 31 ->
  accessed k nb = Ok fr -> request_boxes nb k v h f px = Ok bs -> In b bs -> foot v b n at_ ->
  exists c q o, in_shape (l_comp (nf_lay f)) c /\ 0 <= q < l_nsub (nf_lay f) /\ In o (requests px) /\ at_ = spot hist f h fr c q o.
Proof.
  intros R LF T LC AC E Ib [_ I]. destruct (accessed_inv _ _ _ AC) as [HF F0]. unfold request_boxes in E. rewrite HF in E. cbn [bind] in E. destruct (fr <? 0); [discriminate|].
  rewrite (local_stride total hist name f v c R T) in E. cbn [bind] in E. destruct (get_nc_imap v f) as [im| |]; cbn [bind] in E; try discriminate.
  destruct (mapm_in _ _ _ _ E Ib) as (o & Io & Eo). unfold request_box in Eo.
  rewrite (local_start total hist name f v R T fr h o) in Eo. cbn [bind] in Eo.
  rewrite (local_count total hist name f v c R (ex_intro _ m LF) T LC) in Eo. cbn [bind] in Eo. injection Eo as <-. cbn [b_start b_stride b_count] in I.
  apply in_map_iff in I. destruct I as (i & <- & I). apply in_indices in I. apply (one_index hist f c (ex_intro _ m LF)) in I. destruct I as (c0 & q & Hc & Hq & ->).
  exists c0, q, o. split; [exact Hc|]. split; [exact Hq|]. split; [exact Io|]. exact (local_place total hist f c (ex_intro _ m LF) h fr o c0 q Hc Hq).
Qed.
End Local.
