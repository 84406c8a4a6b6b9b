(** Lemmas about the strided copy. *)
From Verif Require Import Base CIntModel GridModel GridSpec GridProofs GridProofs2 GridProofs3 StridedModel.

(** ** Buffers *)

Lemma rd_ok {A} (buf : list A) i d : 0 <= i < Z.of_nat (length buf) -> rd buf i = Ok (nth (Z.to_nat i) buf d).
Proof.
  intros H. unfold rd. destruct (Z.ltb_spec i 0); [lia|].
  rewrite (nth_error_nth' buf d) by lia. reflexivity.
Qed.

Lemma rd_ok_inv {A} (buf : list A) i v : rd buf i = Ok v -> 0 <= i < Z.of_nat (length buf).
Proof.
  unfold rd. destruct (Z.ltb_spec i 0); [discriminate|].
  destruct (nth_error buf (Z.to_nat i)) eqn:E; [|discriminate]. intros _.
  assert (Z.to_nat i < length buf)%nat by (apply nth_error_Some; congruence). lia.
Qed.

Lemma wr_ok {A} (buf : list A) i v : 0 <= i < Z.of_nat (length buf) -> wr buf i v = Ok (upd buf (Z.to_nat i) v).
Proof.
  intros H. unfold wr. destruct (Z.ltb_spec i 0); [lia|]. destruct (Z.leb_spec (Z.of_nat (length buf)) i); [lia|]. reflexivity.
Qed.

Lemma rd_upd_same {A} (buf : list A) i v :
  0 <= i < Z.of_nat (length buf) -> rd (upd buf (Z.to_nat i) v) i = Ok v.
Proof.
  intros H. rewrite (rd_ok _ _ v) by (rewrite upd_length; lia).
  f_equal. apply nth_upd_same. lia.
Qed.

Lemma rd_upd_other {A} (buf : list A) i j v :
  0 <= i -> i <> j -> rd (upd buf (Z.to_nat i) v) j = rd buf j.
Proof.
  intros Hi Hne. unfold rd. destruct (Z.ltb_spec j 0); [reflexivity|].
  assert (E : nth_error (upd buf (Z.to_nat i) v) (Z.to_nat j) = nth_error buf (Z.to_nat j)); [|now rewrite E].
  assert (Hn : Z.to_nat i <> Z.to_nat j) by lia. revert Hn. generalize (Z.to_nat i) (Z.to_nat j).
  clear. induction buf as [|x r IH]; intros [|a] [|b]; simpl; intros H; try congruence. apply IH; lia.
Qed.

(** ** [linear_index] *)

Lemma fold_left_sum_pairs l a :
  fold_left (fun acc (p : Z * Z) => acc + fst p * snd p) l a = a + zsum (map (fun p => fst p * snd p) l).
Proof. apply (fold_left_sum_gen (fun p : Z * Z => fst p * snd p)). Qed.

Lemma linear_index_off idx s : length idx = length s -> linear_index idx s = off s idx.
Proof.
  unfold linear_index, off. rewrite fold_left_sum_pairs, Z.add_0_l. intros H. f_equal.
  revert s H; induction idx as [|x idx IH]; intros [|y s] H; simpl in H; try lia; [reflexivity|].
  cbn [combine map length seq fst snd]. f_equal; [unfold zn; cbn; ring|].
  rewrite <- seq_shift, map_map. rewrite IH by lia. reflexivity.
Qed.

(** ** Mixed radix digits *)

Fixpoint digits_at (n : list Z) (axes : list nat) (P k : Z) (idx : list Z) : Prop :=
  match axes with
  | [] => True
  | a :: r => zn idx a = (k / P) mod zn n a /\ digits_at n r (P * zn n a) k idx
  end.

Lemma digits_at_ext n axes P k idx idx' :
  (forall a, In a axes -> zn idx' a = zn idx a) -> digits_at n axes P k idx -> digits_at n axes P k idx'.
Proof.
  revert P; induction axes as [|a r IH]; intros P H; [auto|]. intros [H1 H2].
  split; [rewrite H by (now left); exact H1|]. apply IH; [|exact H2]. intros x Hx; apply H; now right.
Qed.

Lemma digits_at_unique n axes P k idx idx' :
  digits_at n axes P k idx -> digits_at n axes P k idx' -> forall a, In a axes -> zn idx a = zn idx' a.
Proof.
  revert P; induction axes as [|b r IH]; intros P; [easy|]. intros [H1 H2] [H1' H2'] a [<-|Ha]; [congruence|].
  now apply (IH (P * zn n b)).
Qed.

Lemma digits_at_zero n axes P idx :
  (forall a, In a axes -> 0 < zn n a) -> 0 < P ->
  (forall a, In a axes -> zn idx a = 0) -> digits_at n axes P 0 idx.
Proof.
  revert P; induction axes as [|a r IH]; intros P Hn HP H; [exact I|].
  split.
  - rewrite H by (now left). rewrite Z.div_0_l by lia. now rewrite Zmod_0_l.
  - apply IH; [intros x Hx; apply Hn; now right| |intros x Hx; apply H; now right].
    specialize (Hn a (or_introl eq_refl)). nia.
Qed.

Lemma carry_step k P N : 0 < P -> 0 < N -> 0 <= k ->
  ((k / P) mod N + ((k + 1) / P - k / P)) / N = (k + 1) / (P * N) - k / (P * N) /\
  ((k / P) mod N + ((k + 1) / P - k / P)) mod N = ((k + 1) / P) mod N /\
  0 <= (k / P) mod N + ((k + 1) / P - k / P).
Proof.
  intros HP HN Hk. rewrite <- !Z.div_div by lia.
  assert (E : (k / P) mod N + ((k + 1) / P - k / P) = (k + 1) / P + (- (k / P / N)) * N).
  { rewrite (Z.mod_eq (k / P) N) by lia. ring. }
  assert (M : k / P <= (k + 1) / P) by (apply Z.div_le_mono; lia).
  pose proof (Z.mod_pos_bound (k / P) N HN).
  split; [|split; [|lia]].
  - rewrite E, Z.div_add by lia. lia.
  - rewrite E. now rewrite Z.mod_add by lia.
Qed.

(** Entries before reduction, as the carry loop leaves them. *)
Fixpoint raw_digits (n : list Z) (axes : list nat) (P k : Z) (u : list Z) : Prop :=
  match axes with
  | [] => True
  | a :: r => 0 <= zn u a /\ zn u a mod zn n a = ((k + 1) / P) mod zn n a /\ raw_digits n r (P * zn n a) k u
  end.

Lemma raw_digits_ext n axes P k u u' :
  (forall a, In a axes -> zn u' a = zn u a) -> raw_digits n axes P k u -> raw_digits n axes P k u'.
Proof.
  revert P; induction axes as [|a r IH]; intros P H; [auto|]. intros (H1 & H2 & H3).
  rewrite <- H in H1, H2 by (now left). split; [exact H1|split; [exact H2|]].
  apply IH; [|exact H3]. intros x Hx; apply H; now right.
Qed.

Lemma carry_loop_spec n k rest : forall prev idx P,
  0 <= k -> 0 < P -> (forall a, In a (prev :: rest) -> 0 < zn n a) ->
  NoDup (prev :: rest) -> (forall a, In a (prev :: rest) -> (a < length idx)%nat) ->
  zn idx prev = (k / P) mod zn n prev + ((k + 1) / P - k / P) ->
  digits_at n rest (P * zn n prev) k idx ->
  exists u, carry_loop n prev rest idx = Ok u /\ length u = length idx /\
    raw_digits n (prev :: rest) P k u /\ (forall a, ~ In a rest -> zn u a = zn idx a).
Proof.
  induction rest as [|b r IH]; intros prev idx P Hk HP Hn Hnd Hlen Hprev Hdig.
  - exists idx. cbn [carry_loop]. split; [reflexivity|]. split; [reflexivity|]. split; [|auto].
    destruct (carry_step k P (zn n prev) HP (Hn prev (or_introl eq_refl)) Hk) as (_ & E2 & E3).
    cbn [raw_digits]. rewrite Hprev. auto.
  - cbn [carry_loop]. pose proof (Hn prev (or_introl eq_refl)) as Pp.
    destruct (Z.eqb_spec (zn n prev) 0); [lia|].
    destruct (carry_step k P (zn n prev) HP Pp Hk) as (E1 & E2 & E3).
    destruct Hdig as [Hb Hr]. inversion Hnd as [|? ? Hnp Hnd']; subst. inversion Hnd' as [|? ? Hnb Hnd'']; subst.
    set (idx' := upd idx b (zn idx b + Z.quot (zn idx prev) (zn n prev))).
    assert (Hnb' : zn idx' b = (k / (P * zn n prev)) mod zn n b + ((k + 1) / (P * zn n prev) - k / (P * zn n prev))).
    { unfold idx'. unfold zn at 1. rewrite nth_upd_same by (apply Hlen; right; now left).
      rewrite Hprev at 1. rewrite Z.quot_div_nonneg by lia. rewrite E1, Hb. reflexivity. }
    assert (Hother : forall a, a <> b -> zn idx' a = zn idx a).
    { intros a Ha. unfold idx', zn. apply nth_upd_other. congruence. }
    destruct (IH b idx' (P * zn n prev)) as (u & Eu & Lu & Ru & Ou); try assumption; [now apply Z.mul_pos_pos| | | |].
    + intros a Ha. apply Hn; now right.
    + intros a Ha. unfold idx'. rewrite upd_length. apply Hlen; now right.
    + apply (digits_at_ext _ _ _ _ idx); [|exact Hr]. intros a Ha. apply Hother. intros ->; contradiction.
    + exists u. split; [exact Eu|]. unfold idx' in Lu. rewrite upd_length in Lu. split; [exact Lu|]. split.
      * cbn [raw_digits]. cbn [raw_digits] in Ru.
        assert (Eprev : zn u prev = zn idx prev).
        { rewrite Ou by (intros Hin; apply Hnp; now right). apply Hother. intros ->. apply Hnp; now left. }
        rewrite Eprev, Hprev. auto.
      * intros a Ha. rewrite Ou by (intros Hin; apply Ha; now right). apply Hother. intros ->. apply Ha; now left.
Qed.

Lemma reduce_loop_spec idx : forall n, length idx = length n -> Forall (fun x => 0 < x) n ->
  exists r, reduce_loop idx n = Ok r /\ length r = length idx /\
    forall i, (i < length idx)%nat -> zn r i = Z.rem (zn idx i) (zn n i).
Proof.
  induction idx as [|x idx IH]; intros [|m n] Hl Hn; simpl in Hl; try lia.
  - exists []. simpl. split; [reflexivity|]. split; [reflexivity|]. intros i Hi; lia.
  - inversion Hn as [|? ? Hm Hn']; subst. destruct (IH n ltac:(lia) Hn') as (r & E & L & H).
    cbn [reduce_loop]. destruct (Z.eqb_spec m 0); [lia|]. rewrite E. cbn [bind].
    eexists; split; [reflexivity|]. split; [simpl; congruence|].
    intros [|i] Hi; [reflexivity|]. rewrite !zn_cons_S. apply H. simpl in Hi; lia.
Qed.

Lemma raw_reduce n axes P k u r :
  (forall a, In a axes -> 0 < zn n a) ->
  (forall a, In a axes -> zn r a = Z.rem (zn u a) (zn n a)) ->
  raw_digits n axes P k u -> digits_at n axes P (k + 1) r.
Proof.
  revert P; induction axes as [|a l IH]; intros P Hn H; [auto|]. intros (H1 & H2 & H3).
  split.
  - rewrite H by (now left). pose proof (Hn a (or_introl eq_refl)).
    rewrite Z.rem_mod_nonneg by lia. exact H2.
  - apply IH; [intros x Hx; apply Hn; now right|intros x Hx; apply H; now right|exact H3].
Qed.

Lemma odo_next_spec n axes k idx :
  n <> [] -> Forall (fun x => 0 < x) n -> Permutation axes (seq 0 (length n)) -> length idx = length n ->
  0 <= k -> digits_at n axes 1 k idx ->
  exists idx', odo_next n axes idx = Ok idx' /\ length idx' = length n /\ digits_at n axes 1 (k + 1) idx'.
Proof.
  intros Hne Hpos Hp Hl Hk Hd.
  pose proof (Forall_pos_zn n axes Hpos Hp) as Hn.
  pose proof (perm_seq_NoDup _ _ Hp) as Hnd.
  destruct axes as [|a r]; [apply Permutation_nil in Hp; destruct n; [now elim Hne|discriminate]|].
  cbn [odo_next]. destruct Hd as [Ha Hr].
  set (idx1 := upd idx a (zn idx a + 1)).
  assert (Hall : forall x, In x (a :: r) -> (x < length idx)%nat) by (intros x Hx; rewrite Hl; now apply (perm_seq_In _ _ Hp)).
  inversion Hnd as [|? ? Hna Hndr]; subst.
  destruct (carry_loop_spec n k r a idx1 1) as (u & Eu & Lu & Ru & _); try assumption; try lia.
  - intros x Hx. unfold idx1. rewrite upd_length. now apply Hall.
  - unfold idx1. unfold zn at 1. rewrite nth_upd_same by (apply Hall; now left). rewrite Ha. rewrite !Z.div_1_r. lia.
  - apply (digits_at_ext _ _ _ _ idx); [|exact Hr]. intros x Hx. unfold idx1, zn. apply nth_upd_other.
    intros ->; contradiction.
  - rewrite Eu. cbn [bind]. unfold idx1 in Lu. rewrite upd_length in Lu.
    destruct (reduce_loop_spec u n ltac:(congruence) Hpos) as (w & Ew & Lw & Hw).
    exists w. split; [exact Ew|]. split; [congruence|].
    apply (raw_reduce n (a :: r) 1 k u w Hn); [|exact Ru].
    intros x Hx. apply Hw. rewrite Lu. now apply Hall.
Qed.

(** ** Ranks of multi-indices in odometer order *)

Fixpoint enc (n : list Z) (axes : list nat) (P : Z) (c : list Z) : Z :=
  match axes with
  | [] => 0
  | a :: r => P * zn c a + enc n r (P * zn n a) c
  end.

Lemma enc_scale n axes c : forall P Q, enc n axes (P * Q) c = P * enc n axes Q c.
Proof.
  induction axes as [|a r IH]; intros P Q; cbn [enc]; [ring|].
  replace (P * Q * zn n a) with (P * (Q * zn n a)) by ring. rewrite IH. ring.
Qed.

Lemma enc_range n axes c :
  (forall a, In a axes -> 0 <= zn c a < zn n a) -> 0 <= enc n axes 1 c < aprod n axes.
Proof.
  induction axes as [|a r IH]; intros H; [unfold aprod; simpl; lia|].
  cbn [enc]. rewrite aprod_cons. replace (1 * zn n a) with (zn n a * 1) by ring. rewrite enc_scale.
  specialize (IH (fun x Hx => H x (or_intror Hx))). specialize (H a (or_introl eq_refl)). nia.
Qed.

Lemma digits_enc n axes c :
  (forall a, In a axes -> 0 <= zn c a < zn n a) ->
  forall P r, 0 < P -> 0 <= r < P -> digits_at n axes P (P * enc n axes 1 c + r) c.
Proof.
  induction axes as [|a l IH]; intros H P r HP Hr; [exact I|].
  pose proof (H a (or_introl eq_refl)) as Ha.
  cbn [enc digits_at]. replace (1 * zn n a) with (zn n a * 1) by ring. rewrite enc_scale.
  set (e := enc n l 1 c). split.
  - replace (P * (1 * zn c a + zn n a * e) + r) with (r + (zn c a + e * zn n a) * P) by ring.
    rewrite Z.div_add by lia. rewrite Z.div_small by lia. rewrite Z.add_0_l, Z.mod_add by lia.
    symmetry. now apply Z.mod_small.
  - replace (P * (1 * zn c a + zn n a * e) + r) with (P * zn n a * e + (P * zn c a + r)) by ring.
    apply IH; [intros x Hx; apply H; now right|nia|nia].
Qed.

Lemma digits_at_range n axes P k idx :
  (forall a, In a axes -> 0 < zn n a) -> digits_at n axes P k idx ->
  forall a, In a axes -> 0 <= zn idx a < zn n a.
Proof.
  revert P; induction axes as [|b r IH]; intros P Hn; [easy|]. intros [H1 H2] a [<-|Ha].
  - rewrite H1. apply Z.mod_pos_bound, Hn; now left.
  - apply (IH (P * zn n b)); try assumption. intros x Hx; apply Hn; now right.
Qed.

Lemma enc_digits n axes k idx :
  (forall a, In a axes -> 0 < zn n a) ->
  forall P, 0 < P -> digits_at n axes P k idx -> enc n axes 1 idx = (k / P) mod aprod n axes.
Proof.
  induction axes as [|a r IH]; intros Hn P HP; cbn [digits_at enc]; [intros _; unfold aprod; simpl; now rewrite Z.mod_1_r|].
  intros [H1 H2]. rewrite aprod_cons. pose proof (Hn a (or_introl eq_refl)) as Pa.
  assert (Pr : 0 < aprod n r) by (apply zprod_pos, Forall_map, Forall_forall; intros x Hx; apply Hn; now right).
  replace (1 * zn n a) with (zn n a * 1) by ring. rewrite enc_scale.
  rewrite (IH (fun x Hx => Hn x (or_intror Hx)) (P * zn n a) ltac:(nia) H2), H1.
  rewrite <- Z.div_div by lia. rewrite Z.rem_mul_r by lia. ring.
Qed.

(** ** The copy loop *)

Lemma in_shape_axes n axes c : Permutation axes (seq 0 (length n)) -> in_shape n c ->
  forall a, In a axes -> 0 <= zn c a < zn n a.
Proof. intros Hp [_ H] a Ha. apply H. now apply (perm_seq_In _ _ Hp). Qed.

Lemma digits_in_shape n axes k idx : Forall (fun x => 0 < x) n -> Permutation axes (seq 0 (length n)) ->
  length idx = length n -> digits_at n axes 1 k idx -> in_shape n idx.
Proof.
  intros Hpos Hp Hl Hd. split; [exact Hl|]. intros i Hi.
  apply (digits_at_range n axes 1 k idx); [now apply Forall_pos_zn|exact Hd|now apply (perm_seq_In _ _ Hp)].
Qed.

Lemma in_shape_ext n c c' : in_shape n c -> in_shape n c' -> (forall i, (i < length n)%nat -> zn c i = zn c' i) -> c = c'.
Proof. intros [L _] [L' _] H. apply list_ext; [congruence|]. rewrite L. exact H. Qed.

Lemma copy_loop_spec {A} n axes is os (inb : list A) :
  n <> [] -> Forall (fun x => 0 < x) n -> Permutation axes (seq 0 (length n)) ->
  length is = length n -> length os = length n -> within n is (Z.of_nat (length inb)) -> injective_on n os ->
  forall steps k idx outb,
  0 <= k -> k + Z.of_nat steps = zprod n -> length idx = length n -> digits_at n axes 1 k idx ->
  within n os (Z.of_nat (length outb)) ->
  exists out', copy_loop steps n axes is os idx inb outb = Ok out' /\ length out' = length outb /\
    (forall c, in_shape n c -> k <= enc n axes 1 c -> rd out' (off os c) = rd inb (off is c)) /\
    (forall j, (forall c, in_shape n c -> k <= enc n axes 1 c -> off os c <> j) -> rd out' j = rd outb j).
Proof.
  intros Hne Hpos Hp His Hos Hin Hinj.
  pose proof (Forall_pos_zn n axes Hpos Hp) as Hn.
  assert (Hap : aprod n axes = zprod n) by (rewrite (aprod_perm n axes _ Hp); apply aprod_seq).
  induction steps as [|steps IH]; intros k idx outb Hk Hkn Hl Hd Hout.
  - exists outb. split; [reflexivity|]. split; [reflexivity|]. split; [|auto].
    intros c Hc Hck. exfalso. pose proof (enc_range n axes c (in_shape_axes n axes c Hp Hc)). lia.
  - pose proof (digits_in_shape n axes k idx Hpos Hp Hl Hd) as Hsh.
    pose proof (Hin idx Hsh) as Bi. pose proof (Hout idx Hsh) as Bo.
    assert (Henc : enc n axes 1 idx = k).
    { rewrite (enc_digits n axes k idx Hn 1 ltac:(lia) Hd). rewrite Z.div_1_r, Hap. apply Z.mod_small. lia. }
    assert (Hsame : forall c, in_shape n c -> enc n axes 1 c = k -> c = idx).
    { intros c Hc Ec. apply (in_shape_ext n); try assumption. intros i Hi.
      assert (Hdc : digits_at n axes 1 k c).
      { pose proof (digits_enc n axes c (in_shape_axes n axes c Hp Hc) 1 0 ltac:(lia) ltac:(lia)) as X.
        rewrite Ec in X. now rewrite Z.mul_1_l, Z.add_0_r in X. }
      apply (digits_at_unique n axes 1 k c idx Hdc Hd). now apply (perm_seq_In _ _ Hp). }
    cbn [copy_loop]. rewrite !linear_index_off by congruence.
    destruct (rd inb (off is idx)) as [v| |] eqn:Ev.
    2,3: unfold rd in Ev; destruct (Z.ltb_spec (off is idx) 0); [lia|];
         destruct (nth_error inb (Z.to_nat (off is idx))) eqn:En; [discriminate|];
         apply nth_error_None in En; lia.
    cbn [bind]. rewrite wr_ok by assumption. cbn [bind].
    destruct (odo_next_spec n axes k idx) as (idx' & En & Ln & Dn); try assumption.
    rewrite En. cbn [bind].
    destruct (IH (k + 1) idx' (upd outb (Z.to_nat (off os idx)) v)) as (out' & Eo & Lo & H1 & H2); try assumption; try lia.
    { rewrite upd_length. exact Hout. }
    exists out'. split; [exact Eo|]. rewrite upd_length in Lo. split; [exact Lo|]. split.
    + intros c Hc Hck. destruct (Z.eq_dec (enc n axes 1 c) k) as [E|E].
      * pose proof (Hsame c Hc E) as ->. rewrite H2.
        -- rewrite rd_upd_same by assumption. now rewrite Ev.
        -- intros c' Hc' Hck' Eoff. apply (Hinj c' idx Hc' Hc) in Eoff. subst c'. lia.
      * apply H1; [exact Hc|lia].
    + intros j Hj. rewrite H2 by (intros c Hc Hck; apply Hj; [exact Hc|lia]).
      apply rd_upd_other; [lia|]. apply Hj; [exact Hsh|lia].
Qed.

Lemma rawmem_prod_exact n : Forall (fun x => 0 < x) n -> zprod n < 2 ^ 31 -> rawmem_prod n = zprod n.
Proof.
  intros Hpos Hv. unfold rawmem_prod. pose proof (zprod_pos n Hpos).
  rewrite accumulate_mul_wrap, wrap32_id by lia. apply Z.mod_small. lia.
Qed.

Lemma strided_copy_correct {A} axes n is os (inb outb : list A) :
  sort_outcome n os axes -> n <> [] -> Forall (fun x => 0 < x) n -> zprod n < 2 ^ 31 ->
  length is = length n -> length os = length n ->
  within n is (Z.of_nat (length inb)) -> within n os (Z.of_nat (length outb)) -> injective_on n os ->
  exists out', strided_copy_with axes n is os inb outb = Ok out' /\ length out' = length outb /\
    (forall c, in_shape n c -> rd out' (off os c) = rd inb (off is c)) /\
    (forall j, (forall c, in_shape n c -> off os c <> j) -> rd out' j = rd outb j).
Proof.
  intros [Hp _] Hne Hpos Hv His Hos Hin Hout Hinj. unfold strided_copy_with.
  rewrite His, Hos, Nat.eqb_refl. cbn [negb]. rewrite rawmem_prod_exact by assumption.
  pose proof (zprod_pos n Hpos).
  pose proof (Forall_pos_zn n axes Hpos Hp) as Hn.
  destruct (copy_loop_spec n axes is os inb Hne Hpos Hp His Hos Hin Hinj (Z.to_nat (zprod n)) 0
             (repeat 0 (length n)) outb) as (out' & E & L & H1 & H2); try assumption; try lia.
  - apply repeat_length.
  - apply digits_at_zero; [assumption|lia|]. intros a _. unfold zn. apply nth_repeat.
  - exists out'. split; [exact E|]. split; [exact L|]. split.
    + intros c Hc. apply H1; [exact Hc|]. pose proof (enc_range n axes c (in_shape_axes n axes c Hp Hc)). lia.
    + intros j Hj. apply H2. intros c Hc _. now apply Hj.
Qed.

Lemma strided_copy_empty {A} axes n is os (inb outb : list A) :
  zprod n = 0 -> length is = length n -> length os = length n ->
  strided_copy_with axes n is os inb outb = Ok outb.
Proof.
  intros H0 His Hos. unfold strided_copy_with. rewrite His, Hos, Nat.eqb_refl. cbn [negb].
  unfold rawmem_prod. rewrite accumulate_mul_wrap, H0. reflexivity.
Qed.

Lemma strided_copy_dims {A} axes n is os (inb outb : list A) :
  length is <> length n \/ length os <> length n ->
  strided_copy_with axes n is os inb outb = Err RuntimeError.
Proof.
  intros H. unfold strided_copy_with.
  destruct (Nat.eqb_spec (length n) (length is)); cbn [negb]; [|reflexivity].
  destruct (Nat.eqb_spec (length n) (length os)); cbn [negb]; [|reflexivity]. lia.
Qed.

Lemma strided_copy_roundtrip {A} axes axes' n s1 s2 (a b a' : list A) :
  sort_outcome n s2 axes -> sort_outcome n s1 axes' -> n <> [] -> Forall (fun x => 0 < x) n -> zprod n < 2 ^ 31 ->
  length s1 = length n -> length s2 = length n -> injective_on n s1 -> injective_on n s2 ->
  within n s1 (Z.of_nat (length a)) -> within n s2 (Z.of_nat (length b)) -> within n s1 (Z.of_nat (length a')) ->
  exists b1 a1, strided_copy_with axes n s1 s2 a b = Ok b1 /\ strided_copy_with axes' n s2 s1 b1 a' = Ok a1 /\
    forall c, in_shape n c -> rd a1 (off s1 c) = rd a (off s1 c).
Proof.
  intros O1 O2 Hne Hpos Hv L1 L2 I1 I2 W1 W2 W3.
  destruct (strided_copy_correct axes n s1 s2 a b O1) as (b1 & E1 & Lb & R1 & _); try assumption.
  destruct (strided_copy_correct axes' n s2 s1 b1 a' O2) as (a1 & E2 & _ & R2 & _); try assumption.
  { now rewrite Lb. }
  exists b1, a1. split; [exact E1|]. split; [exact E2|].
  intros c Hc. rewrite R2 by exact Hc. now apply R1.
Qed.
