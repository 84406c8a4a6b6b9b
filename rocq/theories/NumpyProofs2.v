(** The order detected for an array, and the elements a wrapped field shows. *)
From Verif Require Import Base CIntModel GridModel GridSpec GridProofs GridProofs2 GridProofs3
  LayoutModel LayoutProofs LayoutProofs2 NumpyModel NumpySpec NumpyProofs.

(** ** Strides packed along an order *)

Lemma packed_step w n s order : packed_along w n s order -> 0 < w -> Forall (fun x => 0 < x) n ->
  forall k d, (k + S d < length order)%nat ->
   (zn s (nth k order 0%nat) | zn s (nth (k + S d) order 0%nat)) /\
   zn n (nth k order 0%nat) * zn s (nth k order 0%nat) <= zn s (nth (k + S d) order 0%nat) /\
   w <= zn s (nth k order 0%nat).
Proof.
  intros (Hl & Hp & Hw & Hs) Hw0 Hpos.
  assert (Hn : forall k, (k < length order)%nat -> 0 < zn n (nth k order 0%nat)).
  { intros k Hk. apply (Forall_pos_zn n order Hpos Hp). now apply nth_In. }
  assert (Hge : forall k, (k < length order)%nat -> w <= zn s (nth k order 0%nat)).
  { induction k as [|k IH]; intros Hk.
    - destruct order as [|a r]; [cbn in Hk; lia|]. cbn [nth]. rewrite (Hw a r eq_refl). lia.
    - destruct (Hs k Hk) as [_ H]. specialize (IH ltac:(lia)). specialize (Hn k ltac:(lia)).
      assert (0 <= (zn n (nth k order 0%nat) - 1) * zn s (nth k order 0%nat)) by (apply Z.mul_nonneg_nonneg; lia). lia. }
  intros k d. induction d as [|d IH]; intros Hk.
  - rewrite Nat.add_1_r in *. destruct (Hs k Hk) as [H1 H2]. split; [exact H1|split; [exact H2|apply Hge; lia]].
  - destruct (IH ltac:(lia)) as (H1 & H2 & H3).
    replace (k + S (S d))%nat with (S (k + S d)) in * by lia.
    destruct (Hs (k + S d)%nat Hk) as [H4 H5]. specialize (Hn (k + S d)%nat ltac:(lia)).
    specialize (Hge (k + S d)%nat ltac:(lia)).
    split; [|split; [|exact H3]].
    + eapply Z.divide_trans; eassumption.
    + set (x := zn s (nth (k + S d) order 0%nat)) in *. set (y := zn n (nth (k + S d) order 0%nat)) in *.
      assert (0 <= (y - 1) * x) by (apply Z.mul_nonneg_nonneg; lia). lia.
Qed.

Lemma packed_ge w n s order i : packed_along w n s order -> 0 < w -> Forall (fun x => 0 < x) n ->
  (i < length n)%nat -> w <= zn s i /\ (w | zn s i).
Proof.
  intros H Hw0 Hpos Hi. pose proof H as (Hl & Hp & Hw & Hs).
  apply (perm_seq_In _ _ Hp) in Hi. apply (In_nth _ _ 0%nat) in Hi. destruct Hi as (k & Hk & <-).
  destruct order as [|a r]; [cbn in Hk; lia|]. pose proof (Hw a r eq_refl) as Ha.
  destruct k as [|k]; [cbn [nth]; rewrite Ha; split; [lia|apply Z.divide_refl]|].
  destruct (packed_step _ _ _ _ H Hw0 Hpos 0 k Hk) as (H1 & H2 & H3). cbn [nth Nat.add] in H1, H2, H3 |- *.
  rewrite Ha in H1, H2, H3. split; [|exact H1].
  assert (0 < zn n a) by (apply (Forall_pos_zn n (a :: r) Hpos Hp); now left).
  assert (0 <= (zn n a - 1) * w) by (apply Z.mul_nonneg_nonneg; lia). lia.
Qed.

Lemma packed_pair w n s l1 l2 i j : packed_along w n s (l1 ++ l2) -> 0 < w -> Forall (fun x => 0 < x) n ->
  In i l1 -> In j l2 -> (zn s i | zn s j) /\ zn n i * zn s i <= zn s j.
Proof.
  intros H Hw0 Hpos Hi Hj. apply (In_nth _ _ 0%nat) in Hi. destruct Hi as (k & Hk & <-).
  apply (In_nth _ _ 0%nat) in Hj. destruct Hj as (m & Hm & <-).
  pose proof (packed_step _ _ _ _ H Hw0 Hpos k (length l1 - k + m - 1)) as X.
  rewrite app_length in X. specialize (X ltac:(lia)).
  replace (k + S (length l1 - k + m - 1))%nat with (length l1 + m)%nat in X by lia.
  rewrite (app_nth1 l1 l2) in X by assumption.
  rewrite (app_nth2 l1 l2) in X by lia. replace (length l1 + m - length l1)%nat with m in X by lia. tauto.
Qed.

Lemma packed_le_div w n s order i j : packed_along w n s order -> 0 < w -> Forall (fun x => 0 < x) n ->
  (i < length n)%nat -> (j < length n)%nat -> zn s i <= zn s j -> (zn s i | zn s j).
Proof.
  intros H Hw0 Hpos Hi Hj Hle. pose proof H as (Hl & Hp & Hw & Hs).
  pose proof (packed_ge _ _ _ _ j H Hw0 Hpos Hj) as [Hgj _].
  assert (Hnj : 0 < zn n j) by (rewrite Forall_forall in Hpos; apply Hpos; unfold zn; now apply nth_In).
  apply (perm_seq_In _ _ Hp) in Hi. apply (perm_seq_In _ _ Hp) in Hj.
  apply in_split in Hi. destruct Hi as (l1 & l2 & ->).
  apply in_app_or in Hj. destruct Hj as [Hj|[->|Hj]]; [|apply Z.divide_refl|].
  - destruct (packed_pair w n s l1 (i :: l2) j i H Hw0 Hpos Hj (or_introl eq_refl)) as [H1 H2].
    assert (0 <= (zn n j - 1) * zn s j) by (apply Z.mul_nonneg_nonneg; lia).
    replace (zn s j) with (zn s i) by lia. apply Z.divide_refl.
  - assert (E : l1 ++ i :: l2 = (l1 ++ [i]) ++ l2) by now rewrite <- app_assoc.
    rewrite E in H. apply (packed_pair w n s (l1 ++ [i]) l2 i j H Hw0 Hpos); [|exact Hj].
    apply in_or_app; right; now left.
Qed.

(** ** Offsets under divided strides *)

Lemma off_quot d s : 0 < d -> Forall (fun x => (d | x)) s -> forall c, length c = length s ->
  d * off (map (fun x => Z.quot x d) s) c = off s c.
Proof.
  intros Hd. induction s as [|x s IH]; intros Hs c Hc; [rewrite !off_nil; lia|].
  destruct c as [|y c]; [discriminate|]. inversion Hs as [|? ? Hx Hr]; subst. cbn [map].
  rewrite !off_cons, Z.mul_add_distr_l, IH by (assumption || (cbn in Hc; lia)).
  destruct Hx as [k ->]. rewrite Z.quot_mul by lia. ring.
Qed.

Lemma Forall_zn (P : Z -> Prop) l : (forall i, (i < length l)%nat -> P (zn l i)) -> Forall P l.
Proof.
  intros H. apply Forall_forall. intros x Hx. apply (In_nth _ _ 0) in Hx. destruct Hx as (i & Hi & <-). now apply H.
Qed.
Lemma zn_Forall (P : Z -> Prop) l i : Forall P l -> (i < length l)%nat -> P (zn l i).
Proof. intros H Hi. rewrite Forall_forall in H. apply H. unfold zn. now apply nth_In. Qed.

Lemma zn_app1 l1 l2 i : (i < length l1)%nat -> zn (l1 ++ l2) i = zn l1 i.
Proof. intros H. unfold zn. now apply app_nth1. Qed.
Lemma zn_app2 l1 l2 i : zn (l1 ++ l2) (length l1 + i) = zn l2 i.
Proof. unfold zn. rewrite app_nth2 by lia. f_equal. lia. Qed.

Lemma buffer_size_le n s v M : 0 <= M -> length s = length n -> (forall i, (i < length n)%nat -> zn n i * zn s i <= M) ->
  get_buffer_size n s = Ok v -> v <= M.
Proof.
  intros HM Hs H E. unfold get_buffer_size in E. rewrite Hs, Nat.eqb_refl in E. cbn [negb] in E. apply Ok_inj in E. rewrite <- E.
  assert (G : forall l acc, acc <= M -> (forall p, In p l -> fst p * snd p <= M) ->
     fold_left (fun acc (p : Z * Z) => Z.max acc (fst p * snd p)) l acc <= M).
  { induction l as [|p l IH]; intros acc Ha Hl; cbn [fold_left]; [exact Ha|].
    apply IH; [|intros q Hq; apply Hl; now right]. specialize (Hl p (or_introl eq_refl)). lia. }
  apply G; [lia|]. intros p Hin. apply (In_nth _ _ (0, 0)) in Hin. destruct Hin as (k & Hk & <-).
  rewrite combine_nth by congruence. cbn [fst snd]. rewrite combine_length in Hk. apply H. lia.
Qed.

(** ** Native order: the strides the collection and the field compute *)

(** Components faster than pixels. *)
Lemma col_agrees w cs n cstr pstr fast slow axes c0 cr p0 pr :
  0 < w -> Forall (fun x => 0 < x) cs -> Forall (fun x => 0 < x) n ->
  packed_along w (cs ++ n) (cstr ++ pstr) (fast ++ slow) -> length cstr = length cs -> length pstr = length n ->
  Forall (fun i => (i < length cs)%nat) fast -> Forall (fun i => (length cs <= i)%nat) slow ->
  cstr = c0 :: cr -> pstr = p0 :: pr ->
  ((2 <= length cs)%nat -> zn cstr 0 <= zn cstr 1) ->
  Permutation axes (seq 0 (length cs)) -> dense cs (normalise (min_elt c0 cr) cstr) axes 1 ->
  any_decrease (tl (normalise (min_elt c0 cr) cstr)) = false ->
  min_elt p0 pr = zn cs (snd (last_max c0 cr)) * fst (last_max c0 cr) ->
  forall k p, in_shape cs k -> in_shape n p ->
  w * (off (running 1 cs) k + zprod cs * off (normalise (min_elt p0 pr) pstr) p) = off cstr k + off pstr p.
Proof.
  intros Hw Hcs Hn Hpk Lc Lp Hfast Hslow Ec Ep Hft Hax Hd Hinc Hmin k p Hk Hp.
  assert (Hpos : Forall (fun x => 0 < x) (cs ++ n)) by (apply Forall_app; now split).
  pose proof Hpk as (Hlen & Hperm & Hhead & _).
  assert (Hin : forall i, (i < length (cs ++ n))%nat -> In i (fast ++ slow)) by (intros i Hi; now apply (perm_seq_In _ _ Hperm)).
  rewrite app_length in Hin. rewrite Forall_forall in Hfast, Hslow.
  assert (Hinf : forall i, (i < length cs)%nat -> In i fast).
  { intros i Hi. specialize (Hin i ltac:(lia)). apply in_app_or in Hin. destruct Hin as [H|H]; [exact H|].
    specialize (Hslow _ H). lia. }
  assert (Hins : forall i, (i < length n)%nat -> In (length cs + i)%nat slow).
  { intros i Hi. specialize (Hin (length cs + i)%nat ltac:(lia)). apply in_app_or in Hin. destruct Hin as [H|H]; [|exact H].
    specialize (Hfast _ H). lia. }
  assert (Zc : forall i, (i < length cs)%nat -> zn (cstr ++ pstr) i = zn cstr i) by (intros i Hi; apply zn_app1; lia).
  assert (Zp : forall i, zn (cstr ++ pstr) (length cs + i) = zn pstr i) by (intros i; rewrite <- Lc; apply zn_app2).
  assert (Nc : forall i, (i < length cs)%nat -> zn (cs ++ n) i = zn cs i) by (intros i Hi; now apply zn_app1).
  assert (Np : forall i, zn (cs ++ n) (length cs + i) = zn n i) by (intros i; apply zn_app2).
  assert (Hlcs : (0 < length cs)%nat) by (rewrite <- Lc, Ec; cbn; lia).
  assert (Hln : (0 < length n)%nat) by (rewrite <- Lp, Ep; cbn; lia).
  (* smallest component stride *)
  assert (Hge : forall i, (i < length cs)%nat -> w <= zn cstr i /\ (w | zn cstr i)).
  { intros i Hi. rewrite <- Zc by assumption. apply (packed_ge w (cs ++ n) _ (fast ++ slow)); try assumption. rewrite app_length. lia. }
  assert (Hmc : min_elt c0 cr = w).
  { destruct (min_elt_spec c0 cr) as [(i & Hi & Ei) Hall]. rewrite <- Ec, Lc in *.
    assert (w <= min_elt c0 cr) by (rewrite <- Ei; now apply Hge).
    specialize (Hinf 0%nat Hlcs) as Hf0. destruct fast as [|a r]; [easy|].
    specialize (Hhead a (r ++ slow) eq_refl). specialize (Hfast a (or_introl eq_refl)).
    rewrite Zc in Hhead by assumption. specialize (Hall a Hfast). lia. }
  rewrite Hmc in Hd, Hinc. unfold normalise in Hd, Hinc. replace (0 <? w) with true in Hd, Hinc by (symmetry; now apply Z.ltb_lt).
  set (norm := map (fun s => Z.quot s w) cstr) in *.
  assert (Ln : length norm = length cs) by (unfold norm; now rewrite map_length).
  assert (Hdiv : Forall (fun x => (w | x)) cstr) by (apply Forall_zn; intros i Hi; apply Hge; lia).
  assert (Zn : forall i, (i < length cs)%nat -> w * zn norm i = zn cstr i).
  { intros i Hi. unfold norm. rewrite zn_map_quot. destruct (Hge i Hi) as [_ [q ->]]. rewrite Z.quot_mul; lia. }
  (* components *)
  assert (E1 : off (running 1 cs) k = off norm k).
  { symmetry. apply (dense_col cs norm axes); try assumption.
    intros [|i] Hi.
    - pose proof (Zn 0%nat ltac:(lia)). pose proof (Zn 1%nat ltac:(lia)). specialize (Hft ltac:(lia)). nia.
    - assert (Et : forall j, zn (tl norm) j = zn norm (S j)) by (intros j; destruct norm as [|x r]; [destruct j; reflexivity|now rewrite zn_cons_S]).
      rewrite <- !Et. apply any_decrease_false; [exact Hinc|].
      assert (length norm = S (length (tl norm))) by (destruct norm; [cbn in Ln; lia|reflexivity]). lia. }
  rewrite E1, Z.mul_add_distr_l. unfold norm at 1. rewrite off_quot by (try assumption; destruct Hk; lia). f_equal.
  (* smallest pixel stride *)
  assert (Hcsne : cs <> []) by (intros ->; cbn in Hlcs; lia).
  destruct (dense_top cs norm axes Hcsne Hax Hcs Hd) as (b & Hb & Eb & Hbmax & Hall).
  destruct (last_max_spec c0 cr) as (Hm1 & Hm2 & Hm3). rewrite <- Ec in Hm1, Hm2, Hm3; rewrite Lc in Hm1; setoid_rewrite Lc in Hm3.
  set (m := snd (last_max c0 cr)) in *.
  destruct (min_elt_spec p0 pr) as [(ip & Hip & Eip) Hpmin]. rewrite <- Ep in Hip, Eip, Hpmin; rewrite Lp in Hip; setoid_rewrite Lp in Hpmin.
  set (mp := min_elt p0 pr) in *.
  assert (Hmp1 : w * zprod cs <= mp).
  { rewrite <- Eb, <- Eip. destruct (packed_pair w (cs ++ n) (cstr ++ pstr) fast slow b (length cs + ip)%nat Hpk Hw Hpos (Hinf b Hb) (Hins ip Hip)) as [_ H].
    rewrite Zc, Zp, Nc in H by assumption. rewrite <- (Zn b Hb) in H. lia. }
  assert (Hmp2 : mp <= w * zprod cs).
  { rewrite Hmin, <- Hm2, <- (Zn m Hm1). specialize (Hall m Hm1).
    replace (zn cs m * (w * zn norm m)) with (w * (zn cs m * zn norm m)) by ring. apply Z.mul_le_mono_nonneg_l; lia. }
  assert (Emp : mp = w * zprod cs) by lia.
  pose proof (zprod_pos cs Hcs) as Hzc.
  assert (0 < mp) by (rewrite Emp; apply Z.mul_pos_pos; lia).
  rewrite Z.mul_assoc, <- Emp. unfold normalise. replace (0 <? mp) with true by (symmetry; now apply Z.ltb_lt).
  apply off_quot; [assumption| |destruct Hp; lia].
  apply Forall_zn. intros j Hj. rewrite Lp in Hj. rewrite <- Eip, <- !Zp.
  apply (packed_le_div w (cs ++ n) _ (fast ++ slow)); try assumption; try (rewrite app_length; lia).
  rewrite !Zp, Eip. now apply Hpmin.
Qed.

(** Pixels faster than components. *)
Lemma row_agrees w cs n cstr pstr fast slow axes c0 cr p0 pr nbuf :
  0 < w -> Forall (fun x => 0 < x) cs -> Forall (fun x => 0 < x) n ->
  packed_along w (cs ++ n) (cstr ++ pstr) (fast ++ slow) -> length cstr = length cs -> length pstr = length n ->
  Forall (fun i => (length cs <= i)%nat) fast -> Forall (fun i => (i < length cs)%nat) slow ->
  cstr = c0 :: cr -> pstr = p0 :: pr ->
  ((2 <= length cs)%nat -> zn cstr 1 <= zn cstr 0) ->
  Permutation axes (seq 0 (length cs)) -> dense cs (normalise (min_elt c0 cr) cstr) axes 1 ->
  any_increase (tl (normalise (min_elt c0 cr) cstr)) = false ->
  min_elt c0 cr = zn n (snd (last_max p0 pr)) * fst (last_max p0 pr) ->
  get_buffer_size n (normalise (min_elt p0 pr) pstr) = Ok nbuf ->
  forall k p, in_shape cs k -> in_shape n p ->
  w * (nbuf * off (rev (running 1 (rev cs))) k + off (normalise (min_elt p0 pr) pstr) p) = off cstr k + off pstr p.
Proof.
  intros Hw Hcs Hn Hpk Lc Lp Hfast Hslow Ec Ep Hft Hax Hd Hinc Hmin Hbuf k p Hk Hp.
  assert (Hpos : Forall (fun x => 0 < x) (cs ++ n)) by (apply Forall_app; now split).
  pose proof Hpk as (Hlen & Hperm & Hhead & _).
  assert (Hin : forall i, (i < length (cs ++ n))%nat -> In i (fast ++ slow)) by (intros i Hi; now apply (perm_seq_In _ _ Hperm)).
  rewrite app_length in Hin. pose proof Hfast as Hfast'. rewrite Forall_forall in Hfast, Hslow.
  assert (Hins : forall i, (i < length cs)%nat -> In i slow).
  { intros i Hi. specialize (Hin i ltac:(lia)). apply in_app_or in Hin. destruct Hin as [H|H]; [|exact H].
    specialize (Hfast _ H). lia. }
  assert (Hinf : forall i, (i < length n)%nat -> In (length cs + i)%nat fast).
  { intros i Hi. specialize (Hin (length cs + i)%nat ltac:(lia)). apply in_app_or in Hin. destruct Hin as [H|H]; [exact H|].
    specialize (Hslow _ H). lia. }
  assert (Zc : forall i, (i < length cs)%nat -> zn (cstr ++ pstr) i = zn cstr i) by (intros i Hi; apply zn_app1; lia).
  assert (Zp : forall i, zn (cstr ++ pstr) (length cs + i) = zn pstr i) by (intros i; rewrite <- Lc; apply zn_app2).
  assert (Nc : forall i, (i < length cs)%nat -> zn (cs ++ n) i = zn cs i) by (intros i Hi; now apply zn_app1).
  assert (Np : forall i, zn (cs ++ n) (length cs + i) = zn n i) by (intros i; apply zn_app2).
  assert (Hlcs : (0 < length cs)%nat) by (rewrite <- Lc, Ec; cbn; lia).
  assert (Hln : (0 < length n)%nat) by (rewrite <- Lp, Ep; cbn; lia).
  (* smallest pixel stride *)
  assert (Hge : forall i, (i < length n)%nat -> w <= zn pstr i /\ (w | zn pstr i)).
  { intros i Hi. rewrite <- Zp. apply (packed_ge w (cs ++ n) _ (fast ++ slow)); try assumption. rewrite app_length. lia. }
  assert (Hmp : min_elt p0 pr = w).
  { destruct (min_elt_spec p0 pr) as [(i & Hi & Ei) Hall]. rewrite <- Ep, Lp in *.
    assert (w <= min_elt p0 pr) by (rewrite <- Ei; now apply Hge).
    specialize (Hinf 0%nat Hln) as Hf0. destruct fast as [|a r]; [easy|].
    specialize (Hhead a (r ++ slow) eq_refl). specialize (Hfast a (or_introl eq_refl)).
    assert (Ha : (a < length cs + length n)%nat).
    { pose proof (proj1 (perm_seq_In _ _ Hperm a) (or_introl eq_refl)) as Ha. rewrite app_length in Ha. exact Ha. }
    replace a with (length cs + (a - length cs))%nat in Hhead by lia. rewrite Zp in Hhead.
    specialize (Hall (a - length cs)%nat ltac:(lia)). lia. }
  rewrite Hmp in *. set (pn := normalise w pstr) in *.
  assert (Epn : pn = map (fun s => Z.quot s w) pstr).
  { unfold pn, normalise. replace (0 <? w) with true by (symmetry; now apply Z.ltb_lt). reflexivity. }
  assert (Zpn : forall i, (i < length n)%nat -> w * zn pn i = zn pstr i).
  { intros i Hi. rewrite Epn, zn_map_quot. destruct (Hge i Hi) as [_ [q ->]]. rewrite Z.quot_mul; lia. }
  assert (Lpn : length pn = length n) by (rewrite Epn; now rewrite map_length).
  (* buffer size *)
  destruct (min_elt_spec c0 cr) as [(ic & Hic & Eic) Hcmin]. rewrite <- Ec in Hic, Eic, Hcmin; rewrite Lc in Hic; setoid_rewrite Lc in Hcmin.
  set (mc := min_elt c0 cr) in *.
  destruct (last_max_spec p0 pr) as (Hm1 & Hm2 & Hm3). rewrite <- Ep in Hm1, Hm2, Hm3; rewrite Lp in Hm1; setoid_rewrite Lp in Hm3.
  set (m := snd (last_max p0 pr)) in *.
  assert (Hle : forall i, (i < length n)%nat -> w * (zn n i * zn pn i) <= mc).
  { intros i Hi. replace (w * (zn n i * zn pn i)) with (zn n i * (w * zn pn i)) by ring. rewrite (Zpn i Hi), <- Eic.
    destruct (packed_pair w (cs ++ n) (cstr ++ pstr) fast slow (length cs + i)%nat ic Hpk Hw Hpos (Hinf i Hi) (Hins ic Hic)) as [_ H].
    now rewrite Zp, Np, Zc in H by assumption. }
  assert (Emc : mc = w * (zn n m * zn pn m)).
  { rewrite Hmin, <- Hm2, <- (Zpn m Hm1). ring. }
  assert (Ebuf : nbuf = zn n m * zn pn m).
  { destruct (get_buffer_size_ge n pn nbuf Lpn Hbuf) as [_ H]. specialize (H m Hm1).
    assert (nbuf <= zn n m * zn pn m); [|lia].
    apply (buffer_size_le n pn); try assumption.
    - assert (0 < zn n m) by (now apply zn_Forall). destruct (Hge m Hm1). pose proof (Zpn m Hm1).
      apply Z.mul_nonneg_nonneg; [lia|]. nia.
    - intros i Hi. specialize (Hle i Hi). rewrite Emc in Hle. nia. }
  assert (Emc' : mc = w * nbuf) by (rewrite Emc, Ebuf; reflexivity).
  assert (Hmc0 : 0 < mc).
  { rewrite <- Eic. destruct (packed_ge w (cs ++ n) (cstr ++ pstr) (fast ++ slow) ic Hpk Hw Hpos) as [H _]; [rewrite app_length; lia|].
    rewrite Zc in H by assumption. lia. }
  (* components *)
  unfold normalise in Hd, Hinc. replace (0 <? mc) with true in Hd, Hinc by (symmetry; now apply Z.ltb_lt).
  set (norm := map (fun s => Z.quot s mc) cstr) in *.
  assert (Ln : length norm = length cs) by (unfold norm; now rewrite map_length).
  assert (Hcd : forall i, (i < length cs)%nat -> (mc | zn cstr i)).
  { intros j Hj. rewrite <- Eic, <- !Zc by assumption.
    apply (packed_le_div w (cs ++ n) _ (fast ++ slow)); try assumption; try (rewrite app_length; lia).
    rewrite !Zc, Eic by assumption. now apply Hcmin. }
  assert (Zn : forall i, (i < length cs)%nat -> mc * zn norm i = zn cstr i).
  { intros i Hi. unfold norm. rewrite zn_map_quot. destruct (Hcd i Hi) as [q ->]. rewrite Z.quot_mul; lia. }
  assert (E1 : off (rev (running 1 (rev cs))) k = off norm k).
  { symmetry. apply (dense_row cs norm axes); try assumption.
    intros [|i] Hi.
    - pose proof (Zn 0%nat ltac:(lia)). pose proof (Zn 1%nat ltac:(lia)). specialize (Hft ltac:(lia)). nia.
    - assert (Et : forall j, zn (tl norm) j = zn norm (S j)) by (intros j; destruct norm as [|x r]; [destruct j; reflexivity|now rewrite zn_cons_S]).
      rewrite <- !Et. apply any_increase_false; [exact Hinc|].
      assert (length norm = S (length (tl norm))) by (destruct norm; [cbn in Ln; lia|reflexivity]). lia. }
  rewrite E1, Z.mul_add_distr_l, Z.mul_assoc, <- Emc'. unfold norm. rewrite Epn.
  rewrite !off_quot; try assumption; try reflexivity.
  - apply Forall_zn. intros i Hi. apply Hge. lia.
  - destruct Hp; lia.
  - apply Forall_zn. intros i Hi. apply Hcd. lia.
  - destruct Hk; lia.
Qed.
