(** Proofs about frames. *)
From Verif Require Import Base FrameModel FrameSpec.
Local Open Scope Z_scope.
Local Open Scope list_scope.

Lemma frame_at_exact nb k f : 0 <= nb -> k <> nb -> (frame_at nb k = Ok f <-> - nb <= k < nb /\ f = k mod nb).
Proof.
  intros Hn Hk. unfold frame_at. destruct (Z.ltb_spec k 0) as [C|C]; cbn [andb].
  - destruct (Z.ltb_spec (nb + k) 0) as [D|D]; [split; [discriminate|lia]|]. destruct (Z.ltb_spec nb (nb + k)); [lia|].
    assert (E : k mod nb = nb + k) by (symmetry; apply Z.mod_unique with (-1); lia). rewrite E. split; [intros X; injection X as <-; lia|intros [_ ->]; reflexivity].
  - destruct (Z.ltb_spec nb k) as [D|D]; [split; [discriminate|lia]|]. rewrite Z.mod_small by lia. split; [intros X; injection X as <-; lia|intros [_ ->]; reflexivity].
Qed.
Lemma frame_at_reject nb k : 0 <= nb -> k < - nb \/ nb < k -> frame_at nb k = Err FileIOError.
Proof.
  intros Hn H. unfold frame_at. destruct (Z.ltb_spec k 0) as [C|C]; cbn [andb].
  - destruct (Z.ltb_spec (nb + k) 0) as [D|D]; [reflexivity|lia].
  - destruct (Z.ltb_spec nb k) as [D|D]; [reflexivity|lia].
Qed.
Lemma accessed_exact nb k : 0 <= nb -> accessed k nb = if (- nb <=? k) && (k <? nb) then Ok (k mod nb) else Err FileIOError.
Proof.
  intros Hn. unfold accessed, handle_frame. destruct (Z.ltb_spec k 0) as [C|C].
  - destruct (Z.leb_spec nb (nb + k)) as [D|D]; [lia|]. cbn [bind]. destruct (Z.ltb_spec (nb + k) 0); destruct (Z.leb_spec (- nb) k); try lia; cbn [andb]; [reflexivity|].
    destruct (Z.ltb_spec k nb); [|lia]. f_equal. apply Z.mod_unique with (-1); lia.
  - destruct (Z.leb_spec nb k) as [D|D]; cbn [bind].
    + destruct (Z.ltb_spec k nb); [lia|]. now rewrite andb_false_r.
    + destruct (Z.ltb_spec k 0); [lia|]. destruct (Z.leb_spec (- nb) k); [|lia]. destruct (Z.ltb_spec k nb); [|lia]. cbn [andb]. now rewrite Z.mod_small.
Qed.

Lemma frun_count nb h : frun nb h = nb + Z.of_nat (appends h).
Proof. revert nb. unfold appends. induction h as [|o h IH]; intros nb; cbn [frun filter length]; [lia|]. rewrite IH. destruct o; cbn [fstep fst length]; lia. Qed.

Lemma visit_all nb : forall n i, 0 <= i -> i + Z.of_nat n <= nb -> visit nb i n = map (fun j => Ok (i + Z.of_nat j)) (seq 0 n).
Proof.
  induction n as [|n IH]; intros i Hi Hn; [reflexivity|]. cbn [visit seq map]. f_equal.
  - unfold frame_at. destruct (Z.ltb_spec i 0); [lia|]. cbn [andb]. destruct (Z.ltb_spec nb i); [lia|]. f_equal. lia.
  - rewrite IH by lia. rewrite <- seq_shift, map_map. apply map_ext. intros j. f_equal. lia.
Qed.
Lemma frames_all nb : 0 <= nb -> frames nb = map Ok (zrange (Z.to_nat nb)).
Proof. intros H. unfold frames. rewrite visit_all by lia. unfold zrange. rewrite map_map. apply map_ext. intros j. f_equal. Qed.
