(** Proofs about zipped, enumerated and arithmetic ranges. *)
From Verif Require Import Base GridModel IterModel IterSpec LayoutProofs.
Local Open Scope Z_scope.
Local Open Scope list_scope.

(** A range with exactly the elements of a list. *)
Definition yields {A} (r : range A) (l : list A) : Prop :=
  r_end r = r_begin r + Z.of_nat (length l) * r_step r /\ r_step r <> 0 /\
  forall i x, nth_error l i = Some x -> r_get r (r_begin r + Z.of_nat i * r_step r) = Ok x.

Lemma container_yields {A} (l : list A) : yields (container l) l.
Proof.
  split; [cbn; lia|]. split; [cbn; lia|]. intros i x H. unfold container. cbn [r_get r_begin r_step]. destruct (Z.ltb_spec (0 + Z.of_nat i * 1) 0); [lia|]. replace (Z.to_nat (0 + Z.of_nat i * 1)) with i by lia. now rewrite H.
Qed.

Definition at_step {A} (rs : list (range A)) (i : nat) : list Z := map (fun r => r_begin r + Z.of_nat i * r_step r) rs.
Lemma begin_step {A} (rs : list (range A)) : map r_begin rs = at_step rs 0.
Proof. unfold at_step. apply map_ext. intros r. lia. Qed.
Lemma next_step {A} (rs : list (range A)) i : next_all rs (at_step rs i) = at_step rs (S i).
Proof. unfold next_all, at_step. induction rs as [|r rs IH]; [reflexivity|]. cbn [map combine fst snd]. f_equal; [cbn [fst snd]; lia|exact IH]. Qed.
Lemma differ_step {A} (rs : list (range A)) i : all_differ rs (at_step rs i) = forallb (fun r => negb (r_begin r + Z.of_nat i * r_step r =? r_end r)) rs.
Proof. unfold at_step. induction rs as [|r rs IH]; [reflexivity|]. cbn. now rewrite IH. Qed.
Lemma deref_step {A} (rs : list (range A)) i : deref_all rs (at_step rs i) = mapM (fun r => r_get r (r_begin r + Z.of_nat i * r_step r)) rs.
Proof. unfold at_step. induction rs as [|r rs IH]; [reflexivity|]. cbn. now rewrite IH. Qed.

(** The loop stops at the first step at which some range ends. *)
Lemma zip_core {A} (rs : list (range A)) (P : nat -> list A -> Prop) n :
  (forall i r, (i < n)%nat -> In r rs -> r_begin r + Z.of_nat i * r_step r <> r_end r) ->
  (exists r, In r rs /\ r_begin r + Z.of_nat n * r_step r = r_end r) ->
  (forall i, (i < n)%nat -> exists t, mapM (fun r => r_get r (r_begin r + Z.of_nat i * r_step r)) rs = Ok t /\ P i t) ->
  exists ts, completes (fun fuel => zip fuel rs) ts /\ length ts = n /\ forall i t, nth_error ts i = Some t -> P i t.
Proof.
  intros H1 H2 H3. unfold completes, zip. rewrite begin_step.
  assert (Q : forall k i, (i + k = n)%nat -> exists ts, (forall fuel, (k <= fuel)%nat -> zip_loop fuel rs (at_step rs i) = Some (Ok ts)) /\ length ts = k /\ forall j t, nth_error ts j = Some t -> P (i + j)%nat t).
  { induction k as [|k IH]; intros i E.
    - exists []. split; [|split; [reflexivity|intros [|j] t; discriminate]]. intros fuel _. assert (all_differ rs (at_step rs i) = false) as D.
      { rewrite differ_step. replace i with n by lia. destruct H2 as (r & I & Er). apply not_true_is_false. rewrite forallb_forall. intros X. specialize (X r I). rewrite Er, Z.eqb_refl in X. discriminate. }
      destruct fuel; cbn [zip_loop]; now rewrite D.
    - destruct (IH (S i) ltac:(lia)) as (ts & R & L & Pt). destruct (H3 i ltac:(lia)) as (t & M & Pi). exists (t :: ts). split; [|split; [cbn; lia|]].
      + intros [|fuel] F; [lia|]. cbn [zip_loop]. assert (all_differ rs (at_step rs i) = true) as ->.
        { rewrite differ_step. apply forallb_forall. intros r I. specialize (H1 i r ltac:(lia) I). lia. }
        rewrite deref_step, M, next_step, R by lia. reflexivity.
      + intros [|j] t' N; cbn in N; [injection N as <-; now rewrite Nat.add_0_r|]. replace (i + S j)%nat with (S i + j)%nat by lia. eauto. }
  destruct (Q n 0%nat ltac:(lia)) as (ts & R & L & Pt). exists ts. split; [exists n; exact R|]. auto.
Qed.

(** If no range ever ends, the loop does not stop. *)
Lemma zip_endless {A} (rs : list (range A)) :
  (forall i r, In r rs -> r_begin r + Z.of_nat i * r_step r <> r_end r) ->
  (forall i, exists t, mapM (fun r => r_get r (r_begin r + Z.of_nat i * r_step r)) rs = Ok t) ->
  endless (fun fuel => zip fuel rs).
Proof.
  intros H1 H3. unfold endless, zip. rewrite begin_step. intros fuel. generalize 0%nat. induction fuel as [|fuel IH]; intros i; cbn [zip_loop].
  - assert (all_differ rs (at_step rs i) = true) as ->; [|reflexivity]. rewrite differ_step. apply forallb_forall. intros r I. specialize (H1 i r I). lia.
  - assert (all_differ rs (at_step rs i) = true) as ->. { rewrite differ_step. apply forallb_forall. intros r I. specialize (H1 i r I). lia. }
    destruct (H3 i) as (t & M). now rewrite deref_step, M, next_step, IH.
Qed.

Lemma yields_end {A} (r : range A) l i : yields r l -> (r_begin r + Z.of_nat i * r_step r = r_end r <-> i = length l).
Proof.
  intros (E & N & _). rewrite E. split; intros H; [|now subst]. assert (Z.of_nat i * r_step r = Z.of_nat (length l) * r_step r) as X by lia. apply Z.mul_reg_r in X; [lia|exact N].
Qed.

Lemma shortest {A} (ls : list (list A)) : ls <> [] -> exists l, In l ls /\ forall l', In l' ls -> (length l <= length l')%nat.
Proof.
  induction ls as [|l ls IH]; [congruence|]. intros _. destruct ls as [|l2 ls]; [exists l; split; [now left|]; intros l' [->|[]]; lia|].
  destruct (IH ltac:(discriminate)) as (m & I & Hm). destruct (Nat.le_gt_cases (length l) (length m)) as [C|C].
  - exists l. split; [now left|]. intros l' [->|I']; [lia|]. specialize (Hm l' I'). lia.
  - exists m. split; [now right|]. intros l' [->|I']; [lia|]. now apply Hm.
Qed.

Lemma zip_yields {A} (rs : list (range A)) ls : ls <> [] -> Forall2 yields rs ls -> exists ts, completes (fun fuel => zip fuel rs) ts /\ transposed ls ts.
Proof.
  intros Ne Y. destruct (shortest ls Ne) as (l0 & I0 & Min).
  destruct (zip_core rs (fun i t => Forall2 (fun x l => nth_error l i = Some x) t ls) (length l0)) as (ts & C & L & P).
  - intros i r Hi I E. assert (exists l, In l ls /\ yields r l) as (l & Il & Yl). { clear - Y I. induction Y as [|r' l' rs ls H Y IH]; [contradiction|]. destruct I as [->|I]; [exists l'; split; [now left|exact H]|]. destruct (IH I) as (l & ? & ?). exists l. split; [now right|assumption]. }
    apply (yields_end r l i Yl) in E. specialize (Min l Il). lia.
  - assert (exists r, In r rs /\ yields r l0) as (r & I & Yr). { clear - Y I0. induction Y as [|r' l' rs ls H Y IH]; [contradiction|]. destruct I0 as [->|I]; [exists r'; split; [now left|exact H]|]. destruct (IH I) as (r & ? & ?). exists r. split; [now right|assumption]. }
    exists r. split; [exact I|]. now apply (yields_end r l0).
  - intros i Hi. assert (Min' : forall l, In l ls -> (i < length l)%nat) by (intros l Il; specialize (Min l Il); lia). clear - Y Min'. induction Y as [|r l rs ls H Y IH]; [exists []; auto|].
    destruct IH as (t & M & F). { intros l' I. apply Min'. now right. } destruct (nth_error l i) as [x|] eqn:E; [|apply nth_error_None in E; specialize (Min' l (or_introl eq_refl)); lia].
    exists (x :: t). destruct H as (_ & _ & G). cbn. rewrite (G i x E). cbn [bind]. rewrite M. split; [reflexivity|]. now constructor.
  - exists ts. split; [exact C|]. split; [intros l I; rewrite L; now apply Min|]. split; [exists l0; auto|exact P].
Qed.

(** ** Arithmetic ranges *)

(** Number of steps to the bound. *)
Definition steps (start stop step : Z) : Z := Z.quot (arange_stop start stop step - start) step.
Lemma arange_stop_multiple start stop step : step <> 0 -> arange_stop start stop step = start + steps start stop step * step.
Proof.
  intros N. unfold steps. assert (exists k, arange_stop start stop step - start = k * step) as (k & E).
  { unfold arange_stop. destruct (Z.eqb_spec (Z.rem (stop - start) step) 0) as [R|R].
    - exists (Z.quot (stop - start) step). pose proof (Z.quot_rem' (stop - start) step). lia.
    - exists (1 + Z.quot (stop - start) step). lia. }
  rewrite E, Z.quot_mul by exact N. lia.
Qed.
Lemma steps_bound start stop step : step <> 0 -> (if 0 <? step then start <= stop else stop <= start) ->
  0 <= steps start stop step /\ forall i, 0 <= i -> (i < steps start stop step <-> if 0 <? step then start + i * step < stop else stop < start + i * step).
Proof.
  intros N B. pose proof (arange_stop_multiple start stop step N) as E. set (n := steps start stop step) in *. unfold arange_stop in E.
  pose proof (Z.quot_rem' (stop - start) step) as Q. set (q := Z.quot (stop - start) step) in *. set (r := Z.rem (stop - start) step) in *.
  assert (Rb : if 0 <? step then 0 <= r < step else step < r <= 0).
  { unfold r. destruct (Z.ltb_spec 0 step).
    - apply Z.rem_bound_pos; lia.
    - pose proof (Z.rem_bound_neg_neg (stop - start) step ltac:(lia)). lia. }
  assert (q = n /\ r = 0 \/ q + 1 = n /\ r <> 0) as C.
  { destruct (Z.eqb_spec r 0) as [R|R]; [left; split; [|exact R]|right; split; [|exact R]]; apply Z.mul_reg_r with step; auto; lia. }
  destruct (Z.ltb_spec 0 step) as [S|S].
  - assert (Hq : 0 <= q) by (apply Z.quot_pos; lia). split; [lia|]. intros i Hi. destruct C as [[C R]|[C R]]; subst n.
    + split; intros; nia.
    + split; intros; nia.
  - assert (Hq : 0 <= q) by (unfold q; replace (Z.quot (stop - start) step) with (Z.quot (start - stop) (- step)) by (rewrite <- (Z.quot_opp_opp (stop - start) step) by lia; f_equal; lia); apply Z.quot_pos; lia).
    split; [lia|]. intros i Hi. destruct C as [[C R]|[C R]]; subst n.
    + split; intros; nia.
    + split; intros; nia.
Qed.

(** The values of a range with the given number of steps. *)
Definition values (start step : Z) (n : nat) : list Z := map (fun i => start + Z.of_nat i * step) (seq 0 n).
Lemma values_length start step n : length (values start step n) = n.
Proof. unfold values. now rewrite map_length, seq_length. Qed.
Lemma values_nth start step n i v : nth_error (values start step n) i = Some v <-> (i < n)%nat /\ v = start + Z.of_nat i * step.
Proof.
  unfold values. split.
  - intros H. assert (L : (i < n)%nat) by (assert (X : nth_error (map (fun i => start + Z.of_nat i * step) (seq 0 n)) i <> None) by congruence; apply nth_error_Some in X; now rewrite map_length, seq_length in X).
    split; [exact L|]. erewrite map_nth_error in H; [injection H as <-; reflexivity|]. rewrite (nth_error_nth' _ 0%nat) by now rewrite seq_length. now rewrite seq_nth.
  - intros [L ->]. apply (map_nth_error (fun i => start + Z.of_nat i * step)). rewrite (nth_error_nth' _ 0%nat) by now rewrite seq_length. now rewrite seq_nth.
Qed.

Lemma arange_yields start stop step r : arange start stop step = Ok r -> 0 <= steps start stop step -> yields r (values start step (Z.to_nat (steps start stop step))).
Proof.
  unfold arange. destruct (Z.eqb_spec step 0) as [|N]; [discriminate|]. intros E Hs. injection E as <-. split; [|split; [exact N|]]; cbn [r_end r_begin r_step r_get].
  - rewrite values_length, Z2Nat.id by exact Hs. now apply arange_stop_multiple.
  - intros i x H. apply values_nth in H as [_ ->]. reflexivity.
Qed.

Lemma loop_yields {A} (r : range A) l : yields r l -> completes (fun fuel => loop fuel r) l.
Proof.
  intros Y. destruct (zip_yields [r] [l]) as (ts & (n & C) & T); [discriminate|now constructor|]. exists n. intros fuel F. unfold loop. rewrite (C fuel F). f_equal. f_equal.
  destruct T as (_ & (l' & [<-|[]] & L) & P). clear - L P. revert l L P. induction ts as [|t ts IH]; intros [|x l] L P; cbn in L; try discriminate; [reflexivity|].
  pose proof (P 0%nat t eq_refl) as F. inversion F as [|a b c d Ha Hb]; subst. inversion Hb; subst. cbn in Ha. injection Ha as <-. cbn. f_equal. apply IH; [lia|]. intros i t Ht. pose proof (P (S i) t Ht) as F'. inversion F' as [|a' b' c' d' Ha' Hb']; subst. inversion Hb'; subst. constructor; [exact Ha'|constructor].
Qed.

Lemma arange_endless start stop step r : arange start stop step = Ok r -> steps start stop step < 0 -> endless (fun fuel => loop fuel r).
Proof.
  unfold arange. destruct (Z.eqb_spec step 0) as [|N]; [discriminate|]. intros E Hs. injection E as <-. intros fuel. unfold loop.
  rewrite (zip_endless _); [reflexivity| |].
  - intros i r [<-|[]]; cbn [r_end r_begin r_step]. rewrite (arange_stop_multiple start stop step N). intros H. assert (Z.of_nat i * step = steps start stop step * step) as X by lia. apply Z.mul_reg_r in X; [lia|exact N].
  - intros i. cbn. eauto.
Qed.

Lemma arange_progression start stop step : step <> 0 -> (if 0 <? step then start <= stop else stop <= start) ->
  exists r l, arange start stop step = Ok r /\ completes (fun fuel => loop fuel r) l /\ progression start stop step l.
Proof.
  intros N B. destruct (steps_bound start stop step N B) as [H0 H1]. assert (exists r, arange start stop step = Ok r) as (r & E) by (unfold arange; destruct (Z.eqb_spec step 0); [contradiction|eauto]).
  exists r, (values start step (Z.to_nat (steps start stop step))). split; [exact E|]. split; [apply loop_yields, (arange_yields _ stop); auto|]. split.
  - intros i v H. now apply values_nth in H.
  - intros i. rewrite values_length. rewrite <- H1 by lia. lia.
Qed.

Lemma progression_unique start stop step l l' : progression start stop step l -> progression start stop step l' -> l = l'.
Proof.
  intros [V L] [V' L']. assert (Hlen : length l = length l') by (apply Nat.le_antisymm; apply Nat.nlt_ge; intros X; [apply L in X; apply L' in X|apply L' in X; apply L in X]; lia).
  apply nth_ext with 0 0; [exact Hlen|]. intros i Hi. pose proof (nth_error_nth' l 0 Hi) as A. rewrite Hlen in Hi. pose proof (nth_error_nth' l' 0 Hi) as B. rewrite (V _ _ A), (V' _ _ B). reflexivity.
Qed.

Lemma arange_access start stop step l : step <> 0 -> (if 0 <? step then start <= stop else stop <= start) -> progression start stop step l ->
  arange_size start stop step = Ok (Z.of_nat (length l)) /\ forall i v, nth_error l i = Some v -> arange_at start stop step i = Ok v.
Proof.
  intros N B [V L]. destruct (steps_bound start stop step N B) as [H0 H1]. unfold arange_size, arange_at. destruct (Z.eqb_spec step 0) as [|_]; [contradiction|]. split.
  - f_equal. fold (steps start stop step). set (n := steps start stop step) in *. destruct (Z.lt_trichotomy n (Z.of_nat (length l))) as [C|[C|C]]; [|exact C|].
    + assert (X : (Z.to_nat n < length l)%nat) by lia. apply L in X. rewrite Z2Nat.id in X by lia. apply H1 in X; lia.
    + apply H1 in C; [|lia]. apply L in C. lia.
  - intros i v H. now rewrite (V i v H).
Qed.

(** On the wrong side of the start. *)
Lemma steps_wrong start stop step : step <> 0 -> (if 0 <? step then stop < start else start < stop) ->
  let d := Z.abs (stop - start) in let s := Z.abs step in
  (d < s -> steps start stop step = 1) /\ (s < d < 2 * s -> steps start stop step = 0) /\ (d = s \/ 2 * s <= d -> steps start stop step < 0).
Proof.
  intros N B d s. pose proof (arange_stop_multiple start stop step N) as E. set (n := steps start stop step) in *. unfold arange_stop in E.
  pose proof (Z.quot_rem' (stop - start) step) as Q. set (q := Z.quot (stop - start) step) in *. set (r := Z.rem (stop - start) step) in *.
  assert (Rb : if 0 <? step then - step < r <= 0 else 0 <= r < - step).
  { unfold r. revert B. destruct (Z.ltb_spec 0 step); intros B.
    - pose proof (Z.rem_bound_pos_neg (stop - start) step ltac:(lia) ltac:(lia)). lia.
    - pose proof (Z.rem_bound_neg_pos (stop - start) step ltac:(lia) ltac:(lia)). lia. }
  assert (q = n /\ r = 0 \/ q + 1 = n /\ r <> 0) as C.
  { destruct (Z.eqb_spec r 0) as [R|R]; [left; split; [|exact R]|right; split; [|exact R]]; apply Z.mul_reg_r with step; auto; lia. }
  assert (D : (q = 0 /\ d = Z.abs r \/ q = -1 /\ d = s + Z.abs r \/ q <= -2 /\ 2 * s <= d) /\ Z.abs r < s /\ 0 < d).
  { clear E C. revert B Rb. unfold d, s. destruct (Z.ltb_spec 0 step) as [S|S]; intros B Rb; (split; [|lia]).
    - assert (q <= 0) by nia. destruct (Z.eq_dec q 0) as [->|Q0]; [left; lia|]. destruct (Z.eq_dec q (-1)) as [Q1|Q1]; [right; left; rewrite Q1 in *; lia|]. right. right. nia.
    - assert (q <= 0) by nia. destruct (Z.eq_dec q 0) as [->|Q0]; [left; lia|]. destruct (Z.eq_dec q (-1)) as [Q1|Q1]; [right; left; rewrite Q1 in *; lia|]. right. right. nia. }
  clear E Q Rb B. clearbody q r d s n. (split; [|split]); intros H; lia.
Qed.

Lemma arange_wrong start stop step : step <> 0 -> (if 0 <? step then stop < start else start < stop) -> exists r, arange start stop step = Ok r /\
  let d := Z.abs (stop - start) in let s := Z.abs step in
  (d < s -> completes (fun fuel => loop fuel r) [start]) /\ (s < d < 2 * s -> completes (fun fuel => loop fuel r) []) /\ (d = s \/ 2 * s <= d -> endless (fun fuel => loop fuel r)).
Proof.
  intros N B. assert (exists r, arange start stop step = Ok r) as (r & E) by (unfold arange; destruct (Z.eqb_spec step 0); [contradiction|eauto]).
  exists r. split; [exact E|]. intros d s. destruct (steps_wrong start stop step N B) as (H1 & H2 & H3). fold d s in H1, H2, H3. split; [|split]; intros H.
  - pose proof (arange_yields _ _ _ r E) as Y. rewrite (H1 H) in Y. specialize (Y ltac:(lia)). apply loop_yields. replace [start] with (values start step (Z.to_nat 1)); [exact Y|]. change (Z.to_nat 1) with 1%nat. unfold values. cbn [seq map]. f_equal. lia.
  - pose proof (arange_yields _ _ _ r E) as Y. rewrite (H2 H) in Y. specialize (Y ltac:(lia)). now apply loop_yields.
  - exact (arange_endless _ _ _ r E (H3 H)).
Qed.

(** ** Enumerations *)
Lemma counter_yields {B} r l : yields r l -> yields (@counter B r) (map inl l).
Proof. intros (E & N & G). split; [cbn; now rewrite map_length|]. split; [exact N|]. intros i x H. cbn. rewrite nth_error_map in H; destruct (nth_error l i) as [y|] eqn:Ey; [injection H as <-|discriminate]; now rewrite (G i y) by assumption. Qed.
Lemma element_yields {B} (r : range B) l : yields r l -> yields (element r) (map inr l).
Proof. intros (E & N & G). split; [cbn; now rewrite map_length|]. split; [exact N|]. intros i x H. cbn. rewrite nth_error_map in H; destruct (nth_error l i) as [y|] eqn:Ey; [injection H as <-|discriminate]; now rewrite (G i y) by assumption. Qed.

Lemma enum_general {B} (cs : list (list B)) k stop r m : arange k stop 1 = Ok r ->
  (forall c, In c cs -> (m <= length c)%nat) -> (k <= stop -> k + Z.of_nat m <= stop) -> (k + Z.of_nat m = stop \/ exists c, In c cs /\ length c = m) ->
  exists ts, completes (fun fuel => zip fuel (counter r :: map (fun c => element (container c)) cs)) ts /\ length ts = m /\
    forall i t, nth_error ts i = Some t -> exists xs, t = inl (k + Z.of_nat i) :: map inr xs /\ Forall2 (fun x c => nth_error c i = Some x) xs cs.
Proof.
  unfold arange. cbn [Z.eqb]. intros E Hc Hk Hend. injection E as <-. unfold arange_stop. rewrite Z.rem_1_r. cbn [Z.eqb].
  apply (zip_core _ (fun i t => exists xs, t = inl (k + Z.of_nat i) :: map inr xs /\ Forall2 (fun x c => nth_error c i = Some x) xs cs)).
  - intros i q Hi [<-|I]; cbn [counter r_begin r_step r_end]; [lia|]. apply in_map_iff in I as (c & <- & I). specialize (Hc c I). cbn [element container r_begin r_step r_end]. lia.
  - destruct Hend as [H|(c & I & H)].
    + eexists. split; [left; reflexivity|]. cbn [counter r_begin r_step r_end]. lia.
    + exists (element (container c)). split; [right; apply in_map_iff; eauto|]. cbn [element container r_begin r_step r_end]. lia.
  - intros i Hi. assert (exists xs, mapM (fun r => r_get r (r_begin r + Z.of_nat i * r_step r)) (map (fun c : list B => @element B (container c)) cs) = Ok (map inr xs) /\ Forall2 (fun x c => nth_error c i = Some x) xs cs) as (xs & M & F).
    { clear - Hi Hc. induction cs as [|c cs IH]; [exists []; auto|]. destruct IH as (xs & M & F). { intros c' I. apply Hc. now right. } specialize (Hc c (or_introl eq_refl)).
      destruct (nth_error c i) as [x|] eqn:E; [|apply nth_error_None in E; lia]. exists (x :: xs). split; [|now constructor]. destruct (element_yields _ _ (container_yields c)) as (_ & _ & G).
      cbn [map mapM]. rewrite (G i (inr x)) by now apply map_nth_error. cbn [bind]. now rewrite M. }
    exists (inl (k + Z.of_nat i) :: map inr xs). split; [|exists xs; auto]. cbn [mapM counter r_get r_begin r_step bind]. rewrite M. cbn [bind]. now rewrite Z.mul_1_r.
Qed.

Lemma enumerate_starting {B} (c : list B) k : 0 <= k -> let m := if k <=? Z.of_nat (length c) then (length c - Z.to_nat k)%nat else length c in
  exists ts, completes (fun fuel => enumerate fuel c k) ts /\ length ts = m /\ forall i x, (i < m)%nat -> nth_error c i = Some x -> nth_error ts i = Some [inl (k + Z.of_nat i); inr x].
Proof.
  intros Hk m. unfold enumerate, arange. cbn [Z.eqb]. destruct (enum_general [c] k (Z.of_nat (length c)) _ m eq_refl) as (ts & C & L & P).
  - intros c' [<-|[]]. unfold m. destruct (k <=? _); lia.
  - unfold m. destruct (Z.leb_spec k (Z.of_nat (length c))); lia.
  - unfold m. destruct (Z.leb_spec k (Z.of_nat (length c))); [left; lia|right; exists c; split; [now left|reflexivity]].
  - exists ts. split; [exact C|]. split; [exact L|]. intros i x Hi Hx. destruct (nth_error ts i) as [t|] eqn:E; [|apply nth_error_None in E; lia]. destruct (P i t E) as (xs & -> & F).
    inversion F as [|y c' ys cs' Hy Hys]; subst. inversion Hys; subst. rewrite Hx in Hy. now injection Hy as <-.
Qed.

Lemma enumerate_pairs {B} (c : list B) : exists ts, completes (fun fuel => enumerate fuel c 0) ts /\ length ts = length c /\ forall i x, nth_error c i = Some x -> nth_error ts i = Some [inl (Z.of_nat i); inr x].
Proof.
  destruct (enumerate_starting c 0 ltac:(lia)) as (ts & C & L & P). destruct (Z.leb_spec 0 (Z.of_nat (length c))); [|lia]. replace (length c - Z.to_nat 0)%nat with (length c) in * by lia.
  exists ts. split; [exact C|]. split; [exact L|]. intros i x H1. apply P; [|exact H1]. apply nth_error_Some. congruence.
Qed.

Lemma enum_zip_pairs {B} (c d : list B) : exists ts, completes (fun fuel => enum_zip fuel c d 0) ts /\ length ts = Nat.min (length c) (length d) /\
  forall i x y, nth_error c i = Some x -> nth_error d i = Some y -> nth_error ts i = Some [inl (Z.of_nat i); inr x; inr y].
Proof.
  unfold enum_zip, arange. cbn [Z.eqb]. destruct (enum_general [c; d] 0 (Z.of_nat (length c)) _ (Nat.min (length c) (length d)) eq_refl) as (ts & C & L & P).
  - intros c' [<-|[<-|[]]]; lia.
  - lia.
  - right. destruct (Nat.min_spec (length c) (length d)) as [[_ ->]|[_ ->]]; [exists c|exists d]; cbn; auto.
  - exists ts. split; [exact C|]. split; [exact L|]. intros i x y Hx Hy. assert (i < length c)%nat by (apply nth_error_Some; congruence). assert (i < length d)%nat by (apply nth_error_Some; congruence).
    destruct (nth_error ts i) as [t|] eqn:E; [|apply nth_error_None in E; lia]. destruct (P i t E) as (xs & -> & F).
    inversion F as [|a c' ys cs' Ha Hys]; subst. inversion Hys as [|b d' zs ds' Hb Hzs]; subst. inversion Hzs; subst. rewrite Hx in Ha. rewrite Hy in Hb. injection Ha as <-. injection Hb as <-. reflexivity.
Qed.

Lemma zip_containers {A} (ls : list (list A)) : ls <> [] -> exists ts, completes (fun fuel => zip fuel (map container ls)) ts /\ transposed ls ts.
Proof. intros N. apply zip_yields; [exact N|]. clear N. induction ls; constructor; auto using container_yields. Qed.
