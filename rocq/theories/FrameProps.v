(** Properties of frames.  [frun 0 h] ranges over the numbers of frames of files
    created and used by [h]; an opened file starts with some [nb >= 0]. *)
From Verif Require Import Base FrameModel FrameSpec FrameProofs.
Local Open Scope Z_scope.
Local Open Scope list_scope.

(** ** C36 *)
(** Apart from the index equal to the number of frames (C67), [operator[]]
    yields a handle exactly for existing frames; negative indices count from
    the end. *)
Theorem C36_operator nb h k f : 0 <= nb -> k <> frun nb h -> (frame_at (frun nb h) k = Ok f <-> - frun nb h <= k < frun nb h /\ f = k mod frun nb h).
Proof. intros H. apply frame_at_exact. rewrite frun_count. lia. Qed.
Print Assumptions C36_operator.
Theorem C36_operator_rejects nb h k : 0 <= nb -> k < - frun nb h \/ frun nb h < k -> frame_at (frun nb h) k = Err FileIOError.
Proof. intros H. apply frame_at_reject. rewrite frun_count. lia. Qed.
Print Assumptions C36_operator_rejects.
(** Appended frames are numbered consecutively and become accessible; nothing
    else changes the number of frames. *)
Theorem C36_append nb h : fstep (frun nb h) Append = (frun nb h + 1, Ok (nb + Z.of_nat (appends h))).
Proof. cbn [fstep]. now rewrite frun_count. Qed.
Print Assumptions C36_append.
(** A handle keeps denoting its frame, whatever is done in between. *)
Theorem C36_handle nb h h' f : 0 <= nb -> (exists k, k <> frun nb h /\ frame_at (frun nb h) k = Ok f) \/ snd (fstep (frun nb h) Append) = Ok f /\ In Append h' ->
  snd (fstep (frun (frun nb h) h') (Use f)) = Ok f.
Proof.
  intros H C. cbn [fstep snd]. rewrite accessed_exact by (rewrite !frun_count; lia).
  assert (B : 0 <= f < frun (frun nb h) h').
  { rewrite (frun_count _ h'). destruct C as [(k & Nk & E)|[E I]].
    - apply frame_at_exact in E as [B ->]; [|rewrite frun_count; lia|exact Nk]. pose proof (Z.mod_pos_bound k (frun nb h) ltac:(lia)). lia.
    - cbn [fstep snd] in E. injection E as <-. assert (0 < appends h')%nat. { unfold appends. clear - I. induction h' as [|o h' IH]; [contradiction|]. destruct I as [->|I]; [cbn; lia|]. specialize (IH I). destruct o; cbn [filter length] in *; lia. }
      rewrite frun_count. lia. }
  destruct (Z.leb_spec (- frun (frun nb h) h') f); [|lia]. destruct (Z.ltb_spec f (frun (frun nb h) h')); [|lia]. cbn [andb]. now rewrite Z.mod_small.
Qed.
Print Assumptions C36_handle.
(** Reading and writing reach an existing frame or throw before anything is
    transferred. *)
Theorem C36_access nb h k : 0 <= nb -> accessed k (frun nb h) = if (- frun nb h <=? k) && (k <? frun nb h) then Ok (k mod frun nb h) else Err FileIOError.
Proof. intros H. apply accessed_exact. rewrite frun_count. lia. Qed.
Print Assumptions C36_access.
Theorem C36_iterate nb h : 0 <= nb -> frames (frun nb h) = map Ok (zrange (Z.to_nat (frun nb h))).
Proof. intros H. apply frames_all. rewrite frun_count. lia. Qed.
Print Assumptions C36_iterate.
Example C36_case : frun 0 [Append; At 0; Append; Use 0; Append] = 3 /\ frame_at 3 (-1) = Ok 2 /\ frame_at 3 (-3) = Ok 0 /\ frame_at 3 (-4) = Err FileIOError /\
  frame_at 3 4 = Err FileIOError /\ accessed (-4) 3 = Err FileIOError /\ accessed 3 3 = Err FileIOError /\ accessed (-1) 3 = Ok 2 /\ frames 2 = [Ok 0; Ok 1].
Proof. repeat split; reflexivity. Qed.

(** ** C67: the index equal to the number of frames *)
(** It is accepted although no such frame exists; an access through the handle
    throws, until a frame is appended, which the handle then denotes. *)
Theorem C67_one_past_refuted nb h : 0 <= nb -> frame_at (frun nb h) (frun nb h) = Ok (frun nb h) /\
  snd (fstep (frun nb h) (Use (frun nb h))) = Err FileIOError /\ snd (fstep (frun (frun nb h) [Append]) (Use (frun nb h))) = Ok (frun nb h).
Proof.
  intros H. set (n := frun nb h). assert (Hn : 0 <= n) by (unfold n; rewrite frun_count; lia). clearbody n. split; [|split].
  - unfold frame_at. destruct (Z.ltb_spec n 0); [lia|]. cbn [andb]. destruct (Z.ltb_spec n n); [lia|reflexivity].
  - cbn [fstep snd]. rewrite accessed_exact by exact Hn. destruct (Z.ltb_spec n n); [lia|]. now rewrite andb_false_r.
  - cbn [frun fstep fst snd]. rewrite accessed_exact by lia. destruct (Z.leb_spec (- (n + 1)) n); [|lia]. destruct (Z.ltb_spec n (n + 1)); [|lia]. cbn [andb]. f_equal. apply Z.mod_small. lia.
Qed.
Print Assumptions C67_one_past_refuted.
Example C67_case : frame_at 0 0 = Ok 0 /\ frame_at 5 5 = Ok 5 /\ accessed 5 5 = Err FileIOError.
Proof. repeat split; reflexivity. Qed.

(** ** C68: writing variables without frame dimension *)
(** Fails as long as the file has no frame, although no frame is addressed. *)
Theorem C68_no_frame_refuted framed : write_no_frame 0 (false :: framed) = Err FileIOError.
Proof.
  unfold write_no_frame. cbn [existsb orb]. destruct (existsb (fun b => b) framed); [reflexivity|]. cbn [fold_left bind accessed handle_frame]. change (let! _ := accessed 0 0 in Ok tt) with (@Err unit FileIOError).
  induction framed as [|b l IH]; [reflexivity|]. cbn [fold_left bind]. exact IH.
Qed.
Print Assumptions C68_no_frame_refuted.
Theorem C68_no_frame_partial nb framed : 0 < nb -> write_no_frame nb framed = if existsb (fun b => b) framed then Err FileIOError else Ok tt.
Proof.
  intros H. unfold write_no_frame. destruct (existsb (fun b => b) framed); [reflexivity|]. rewrite accessed_exact by lia. destruct (Z.leb_spec (- nb) 0); [|lia]. destruct (Z.ltb_spec 0 nb); [|lia]. cbn [andb bind].
  induction framed as [|b l IH]; [reflexivity|]. cbn [fold_left bind]. exact IH.
Qed.
Print Assumptions C68_no_frame_partial.
Example C68_case : write_no_frame 0 [false] = Err FileIOError /\ write_no_frame 1 [false; false] = Ok tt /\ write_no_frame 1 [false; true] = Err FileIOError.
Proof. repeat split; reflexivity. Qed.
