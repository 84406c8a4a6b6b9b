(** Lemmas about the transfer of boxes between memory and file. *)
From Coq Require Import String Ascii.
From Verif Require Import Base CIntModel GridModel GridSpec GridProofs StridedModel StridedProofs LayoutModel LayoutSpec LayoutProofs LayoutProofs2 CommModel FrameModel.
From Verif Require Import NetCDFModel NetCDFSpec.
Local Open Scope Z_scope.
Local Open Scope list_scope.

Lemma in_zrange_from a n x : In x (zrange_from a n) <-> a <= x < a + Z.of_nat n.
Proof.
  revert a. induction n as [|n IH]; intros a; cbn [zrange_from In]; [split; [easy|lia]|].
  rewrite IH. split; [intros [<-|H]|intros H]; [lia|lia|]. destruct (Z.eq_dec a x); [now left|right; lia].
Qed.
Lemma in_indices count i : In i (indices count) <-> in_shape count i.
Proof.
  revert i. induction count as [|n r IH]; intros i; cbn [indices].
  - rewrite in_shape_nil. cbn. intuition.
  - rewrite in_flat_map, in_shape_cons. split.
    + intros (x & Hx & Hi). apply in_zrange_from in Hx. apply in_map_iff in Hi. destruct Hi as (t & <- & Ht).
      exists x, t. split; [reflexivity|]. split; [lia|]. now apply IH.
    + intros (x & t & -> & Hx & Ht). exists x. split; [apply in_zrange_from; lia|]. apply in_map_iff. exists t. split; [reflexivity|]. now apply IH.
Qed.

Lemma zlist_eqb_eq a : forall b, zlist_eqb a b = true <-> a = b.
Proof.
  induction a as [|x a IH]; intros [|y b]; cbn [zlist_eqb]; [easy..|]. rewrite andb_true_iff, Z.eqb_eq, IH.
  split; [intros [-> ->]; reflexivity|intros E; injection E; auto].
Qed.

Section T.
Context {A : Type}.
Implicit Types (g : string -> list Z -> A) (buf : list A).

Lemma set_cell_same g n i x : set_cell g n i x n i = x.
Proof. unfold set_cell. rewrite String.eqb_refl. now rewrite (proj2 (zlist_eqb_eq i i) eq_refl). Qed.
Lemma set_cell_other g n i x n' i' : n' <> n \/ i' <> i -> set_cell g n i x n' i' = g n' i'.
Proof.
  intros H. unfold set_cell. destruct (String.eqb_spec n' n) as [E|E]; [|reflexivity]. cbn [andb].
  destruct (zlist_eqb i' i) eqn:Z; [|reflexivity]. apply zlist_eqb_eq in Z. tauto.
Qed.

Lemma put_loop_spec name start stride imap p buf is : forall g,
  (forall i, In i is -> 0 <= p + linear_index i imap < Z.of_nat (length buf)) ->
  exists g', put_loop name start stride imap p buf is g = Ok g' /\
    (forall n at_, (n <> name \/ forall i, In i is -> at_ <> place_of start stride i) -> g' n at_ = g n at_) /\
    (forall i, In i is -> (forall i', In i' is -> place_of start stride i' = place_of start stride i -> i' = i) ->
       rd buf (p + linear_index i imap) = Ok (g' name (place_of start stride i))).
Proof.
  induction is as [|i is IH]; intros g B.
  - exists g. split; [reflexivity|]. split; [easy|]. intros i [].
  - cbn [put_loop]. pose proof (B i (or_introl eq_refl)) as Bi.
    assert (D : exists a, rd buf (p + linear_index i imap) = Ok a).
    { destruct buf as [|b0 bt] eqn:EB; [cbn in Bi; lia|]. rewrite <- EB in *. eexists. now apply (rd_ok buf _ b0). }
    destruct D as [a Ea]. rewrite Ea. cbn [bind].
    destruct (IH (set_cell g name (place_of start stride i) a)) as (g' & E & O & V); [intros; apply B; now right|].
    exists g'. split; [exact E|]. split.
    + intros n at_ H. rewrite O.
      * apply set_cell_other. destruct H as [H|H]; [now left|right]. apply H. now left.
      * destruct H as [H|H]; [now left|right]. intros i' I. apply H. now right.
    + intros j [->|I] U.
      * destruct (in_dec (list_eq_dec Z.eq_dec) j is) as [I|N].
        -- apply V; [exact I|]. intros i' I'. apply U. now right.
        -- rewrite O; [rewrite set_cell_same; exact Ea|]. right. intros i' I' E'. apply N.
           rewrite <- (U i'); [exact I'|now right|now symmetry].
      * apply V; [exact I|]. intros i' I'. apply U. now right.
Qed.

Lemma get_loop_spec (g : list Z -> A) start stride imap p is : forall buf,
  (forall i, In i is -> 0 <= p + linear_index i imap < Z.of_nat (length buf)) ->
  exists buf', get_loop g start stride imap p is buf = Ok buf' /\ length buf' = length buf /\
    (forall j, (forall i, In i is -> j <> p + linear_index i imap) -> rd buf' j = rd buf j) /\
    (forall i, In i is -> (forall i', In i' is -> linear_index i' imap = linear_index i imap -> i' = i) ->
       rd buf' (p + linear_index i imap) = Ok (g (place_of start stride i))).
Proof.
  induction is as [|i is IH]; intros buf B.
  - exists buf. split; [reflexivity|]. split; [reflexivity|]. split; [easy|]. intros i [].
  - cbn [get_loop]. pose proof (B i (or_introl eq_refl)) as Bi. rewrite wr_ok by exact Bi. cbn [bind].
    set (b1 := upd buf _ _) in *.
    assert (L1 : length b1 = length buf) by apply upd_length.
    destruct (IH b1) as (b' & E & L & O & V); [intros; rewrite L1; apply B; now right|].
    exists b'. split; [exact E|]. split; [congruence|]. split.
    + intros j H. rewrite O by (intros i' I'; apply H; now right).
      apply rd_upd_other; [lia|]. intros E0. apply (H i); [now left|congruence].
    + intros j [->|I] U.
      * destruct (in_dec (list_eq_dec Z.eq_dec) j is) as [I|N].
        -- apply V; [exact I|]. intros i' I'. apply U. now right.
        -- rewrite O.
           ++ unfold b1. now apply rd_upd_same.
           ++ intros i' I' E'. apply N. rewrite <- (U i'); [exact I'|now right|lia].
      * apply V; [exact I|]. intros i' I'. apply U. now right.
Qed.
End T.

(** ** Places of a box *)
Lemma place_inj start : forall stride i i', length stride = length start -> length i = length start -> length i' = length start ->
  Forall (fun s => 0 < s) stride -> place_of start stride i = place_of start stride i' -> i = i'.
Proof.
  induction start as [|a start IH]; intros [|s stride] [|x i] [|y i'] Hs Hi Hi' P; cbn in Hs, Hi, Hi'; try lia; [reflexivity|].
  apply Forall_cons_iff in P. destruct P as [P1 P2]. cbn [place_of]. intros E. injection E as E1 E2. f_equal; [nia|].
  apply (IH stride); try lia; assumption.
Qed.

Lemma place_app s1 : forall t1 i1 s2 t2 i2, length t1 = length s1 -> length i1 = length s1 ->
  place_of (s1 ++ s2) (t1 ++ t2) (i1 ++ i2) = place_of s1 t1 i1 ++ place_of s2 t2 i2.
Proof.
  induction s1 as [|a s1 IH]; intros [|t t1] [|x i1] s2 t2 i2 Ht Hi; cbn in Ht, Hi; try lia; [reflexivity|].
  cbn [place_of app]. f_equal. apply IH; lia.
Qed.
Lemma place_zero start : forall stride, length stride = length start -> place_of start stride (repeat 0 (length start)) = start.
Proof.
  induction start as [|a start IH]; intros [|s stride] H; cbn in H; try lia; [reflexivity|].
  cbn [length repeat place_of]. rewrite IH by lia. f_equal. lia.
Qed.
Lemma place_from_zero i : place_of (repeat 0 (length i)) (repeat 1 (length i)) i = i.
Proof. induction i as [|x i IH]; [reflexivity|]. cbn [length repeat place_of]. rewrite IH. f_equal. lia. Qed.

Lemma in_shape_ones n i : in_shape (repeat 1 n) i -> i = repeat 0 n.
Proof.
  revert i. induction n as [|n IH]; intros i; cbn [repeat].
  - apply in_shape_nil.
  - rewrite in_shape_cons. intros (x & r & -> & Hx & Hr). rewrite (IH r Hr). f_equal. lia.
Qed.
Lemma ones_in_shape n : in_shape (repeat 1 n) (repeat 0 n).
Proof.
  induction n as [|n IH]; cbn [repeat]; [now apply in_shape_nil|]. apply in_shape_cons.
  exists 0, (repeat 0 n). split; [reflexivity|]. split; [lia|exact IH].
Qed.

Lemma all_within_app limit d1 : forall a1 c1 s1 d2 a2 c2 s2,
  length a1 = length d1 -> length c1 = length d1 -> length s1 = length d1 ->
  all_within limit (d1 ++ d2) (a1 ++ a2) (c1 ++ c2) (s1 ++ s2) =
  all_within limit d1 a1 c1 s1 && all_within limit d2 a2 c2 s2.
Proof.
  induction d1 as [|d d1 IH]; intros [|a a1] [|c c1] [|s s1] d2 a2 c2 s2 Ha Hc Hs; cbn in Ha, Hc, Hs; try lia; [reflexivity|].
  cbn [app all_within]. rewrite IH by lia. now rewrite andb_assoc.
Qed.

Section T2.
Context {A : Type}.

Lemma put_varm_spec v start count stride imap p (buf : list A) file :
  length start = length (v_dims v) -> length count = length (v_dims v) ->
  length stride = length (v_dims v) -> length imap = length (v_dims v) ->
  all_within None (v_dims v) start count stride = true -> Forall (fun s => 0 < s) stride ->
  (forall i, in_shape count i -> 0 <= p + off imap i < Z.of_nat (length buf)) ->
  exists g, put_varm v start count stride imap p buf file = Ok (mk_ncfile (grown v start (recs file)) g) /\
    (forall n at_, (n <> v_name v \/ forall i, in_shape count i -> at_ <> place_of start stride i) -> g n at_ = cells file n at_) /\
    (forall i, in_shape count i -> rd buf (p + off imap i) = Ok (g (v_name v) (place_of start stride i))).
Proof.
  intros L1 L2 L3 L4 W P B.
  assert (LI : forall i, in_shape count i -> linear_index i imap = off imap i).
  { intros i Hi. apply linear_index_off. apply in_shape_length in Hi. congruence. }
  unfold put_varm, enough. rewrite L1, L2, L3, L4, Nat.leb_refl. cbn [andb negb]. rewrite W. cbn [negb].
  destruct (put_loop_spec (v_name v) start stride imap p buf (indices count) (cells file)) as (g & E & O & V).
  { intros i Hi. apply in_indices in Hi. rewrite LI by exact Hi. now apply B. }
  exists g. rewrite E. cbn [bind]. split; [reflexivity|]. split.
  - intros n at_ [H|H]; apply O; [now left|right]. intros i Hi. apply in_indices in Hi. now apply H.
  - intros i Hi. rewrite <- LI by exact Hi. apply V; [now apply in_indices|]. intros i' Hi' E'.
    apply in_indices in Hi'. apply in_shape_length in Hi, Hi'. apply (place_inj start stride); [congruence..|exact P|exact E'].
Qed.

Lemma get_varm_spec v start count stride imap p (buf : list A) file :
  length start = length (v_dims v) -> length count = length (v_dims v) ->
  length stride = length (v_dims v) -> length imap = length (v_dims v) ->
  all_within (Some (recs file)) (v_dims v) start count stride = true ->
  (forall i, in_shape count i -> 0 <= p + off imap i < Z.of_nat (length buf)) -> injective_on count imap ->
  exists b, get_varm v start count stride imap file p buf = Ok b /\ length b = length buf /\
    (forall j, (forall i, in_shape count i -> j <> p + off imap i) -> rd b j = rd buf j) /\
    (forall i, in_shape count i -> rd b (p + off imap i) = Ok (cells file (v_name v) (place_of start stride i))).
Proof.
  intros L1 L2 L3 L4 W B J.
  assert (LI : forall i, in_shape count i -> linear_index i imap = off imap i).
  { intros i Hi. apply linear_index_off. apply in_shape_length in Hi. congruence. }
  unfold get_varm, enough. rewrite L1, L2, L3, L4, Nat.leb_refl. cbn [andb negb]. rewrite W. cbn [negb].
  destruct (get_loop_spec (cells file (v_name v)) start stride imap p (indices count) buf) as (b & E & L & O & V).
  { intros i Hi. apply in_indices in Hi. rewrite LI by exact Hi. now apply B. }
  exists b. split; [exact E|]. split; [exact L|]. split.
  - intros j H. apply O. intros i Hi. apply in_indices in Hi. rewrite LI by exact Hi. now apply H.
  - intros i Hi. rewrite <- LI by exact Hi. apply V; [now apply in_indices|]. intros i' Hi' E'.
    apply in_indices in Hi'. rewrite !LI in E' by assumption. now apply J.
Qed.
End T2.
