(** C174, C175: frames of files in Python *)
From Coq Require Import String.
From Verif Require Import Base FrameModel FrameProofs PyCommModel PyArgModel PyArgSpec PyArgProofs PyFrameModel PyFrameSpec PyFrameProofs.
Local Open Scope Z_scope.
Local Open Scope list_scope.

(** An iterator gives the frames that the file has when it is made, in order, then the
    end, again and again, whatever the program does between the calls. *)
Theorem C174_iterate n0 h0 s1 i h : 0 <= n0 -> pfstep (fst (pfrun (opened_with n0) h0)) PIter = (s1, OIter i) ->
  results (next_of i) h (snd (pfrun s1 h)) = map (forwards (n0 + Z.of_nat (count appending h0))) (seq 0 (count (next_of i) h)).
Proof.
  intros H E. pose proof (pfrun_nb h0 (opened_with n0)) as N. cbn [opened_with p_nb] in N. rewrite <- N. apply iterate; [lia|exact E].
Qed.
Print Assumptions C174_iterate.
(** [reversed] gives them in the opposite order. *)
Theorem C174_reversed n0 h0 s1 i h : 0 <= n0 -> pfstep (fst (pfrun (opened_with n0) h0)) PReversed = (s1, OIter i) ->
  results (previous_of i) h (snd (pfrun s1 h)) = map (backwards (n0 + Z.of_nat (count appending h0))) (seq 0 (count (previous_of i) h)).
Proof.
  intros H E. pose proof (pfrun_nb h0 (opened_with n0)) as N. cbn [opened_with p_nb] in N. rewrite <- N. apply iterate_reversed; [lia|exact E].
Qed.
Print Assumptions C174_reversed.
(** Two iterators, one made before a frame is appended *)
Example C174_case : snd (pfrun (opened_with 2) [PIter; PNext 0; PAppend; PIter; PNext 1; PNext 0; PNext 0; PNext 0; PNext 1; PNext 1; PNext 1; PReversed; PAppend; PPrevious 0; PPrevious 0; PPrevious 0; PPrevious 0; PPrevious 0; PLen]) =
  [OIter 0; OFrame 0; OFrame 2; OIter 1; OFrame 0; OFrame 1; OStop; OStop; OFrame 1; OFrame 2; OStop; OIter 0; OFrame 3; OFrame 2; OFrame 1; OFrame 0; OStop; OStop; OLen 4].
Proof. reflexivity. Qed.

(** The length counts the frames. *)
Theorem C174_length n0 h : snd (pfstep (fst (pfrun (opened_with n0) h)) PLen) = OLen (n0 + Z.of_nat (count appending h)) /\
  snd (pfstep (fst (pfrun (opened_with n0) h)) PAppend) = OFrame (n0 + Z.of_nat (count appending h)).
Proof. pose proof (pfrun_nb h (opened_with n0)) as N. cbn [opened_with p_nb] in N. cbn [pfstep snd]. now rewrite N. Qed.
Print Assumptions C174_length.

(** Items: integers count from the start or the end; what is not an integer is refused.
    For the index that is the length see C175. *)
Theorem C174_item n0 h k : 0 <= n0 -> index64 k -> let n := n0 + Z.of_nat (count appending h) in k <> n ->
  snd (pfstep (fst (pfrun (opened_with n0) h)) (PItem (ANum (NInt k)))) = if (- n <=? k) && (k <? n) then OFrame (k mod n) else ORaised FileIOError.
Proof.
  intros H R n D. pose proof (pfrun_nb h (opened_with n0)) as N. cbn [opened_with p_nb] in N. fold n in N. cbn [pfstep snd]. rewrite N, index_int by exact R. assert (Hn : 0 <= n) by (unfold n; lia). clearbody n. clear N.
  destruct (Z.leb_spec (- n) k); destruct (Z.ltb_spec k n); cbn [andb]; try (rewrite frame_at_reject by lia; reflexivity).
  destruct (frame_at_exact n k (k mod n) Hn D) as [_ E]. rewrite E by lia. reflexivity.
Qed.
Print Assumptions C174_item.
Theorem C174_item_refused s x : not_int x -> snd (pfstep s (PItem (ANum x))) = OTypeError /\ snd (pfstep s (PItem AOther)) = OTypeError.
Proof. intros N. cbn [pfstep snd]. unfold index_argument, overloads, first_fit, load_index. rewrite !load64_not by exact N. split; reflexivity. Qed.
Print Assumptions C174_item_refused.

(** Frames that iterators, items and [append_frame] gave can be read and written for the
    rest of the program, all fields or those with the names given. *)
Theorem C174_use n0 h h' o f names l : 0 <= n0 -> snd (pfstep (fst (pfrun (opened_with n0) h)) o) = OFrame f -> f <> n0 + Z.of_nat (count appending h) \/ o = PAppend ->
  (forall a, o <> PFrame a) -> (names = None /\ l = None) \/ (exists t, names = Some (NSeq (map Some t)) /\ l = Some t) ->
  snd (pfstep (fst (pfrun (fst (pfstep (fst (pfrun (opened_with n0) h)) o)) h')) (PUse f names)) = OAccess f l.
Proof.
  intros H E D Nf Hl. set (s := fst (pfrun (opened_with n0) h)) in *. pose proof (pfrun_nb h (opened_with n0)) as N. cbn [opened_with p_nb] in N. fold s in N.
  pose proof (pfrun_nb h' (fst (pfstep s o))) as N'. rewrite pfstep_nb in N'.
  assert (B : 0 <= f < p_nb (fst (pfrun (fst (pfstep s o)) h'))).
  { rewrite N'. destruct o; cbn [pfstep] in E; try discriminate.
    - cbn [snd] in E. destruct (index_argument a) as [k|]; [|discriminate]. destruct (frame_at (p_nb s) k) as [g| |] eqn:Fr; try discriminate. cbn [frame_out] in E. inversion E; subst g.
      destruct D as [D|D]; [|discriminate]. destruct (Z.eq_dec k (p_nb s)) as [->|Dk].
      { exfalso. unfold frame_at in Fr. destruct (Z.ltb_spec (p_nb s) 0); [lia|]. cbn [andb] in Fr. rewrite Z.ltb_irrefl in Fr. inversion Fr. lia. }
      apply frame_at_exact in Fr; [|lia|exact Dk]. destruct Fr as [Rk ->]. pose proof (Z.mod_pos_bound k (p_nb s)). lia.
    - cbn [snd] in E. inversion E. subst f. cbn [appending]. lia.
    - exfalso. now apply (Nf a).
    - destruct (nth_error (p_iters s) i) as [t|] eqn:It; [|discriminate]. unfold iter_next in E. destruct D as [D|D]; [|discriminate].
      set (x := if it_idle t then it_at t else it_at t + 1) in *. clearbody x. cbn [appending].
      destruct (x =? it_end t); [discriminate|]. cbn [snd] in E. destruct (frame_at (p_nb s) x) as [g| |] eqn:Fr; try discriminate. cbn [frame_out] in E. inversion E; subst g.
      unfold frame_at in Fr. destruct (Z.ltb_spec x 0); cbn [andb] in Fr.
      + destruct (Z.ltb_spec (p_nb s + x) 0); [discriminate|]. destruct (Z.ltb_spec (p_nb s) (p_nb s + x)); [discriminate|]. inversion Fr; subst f. lia.
      + destruct (Z.ltb_spec (p_nb s) x); [discriminate|]. inversion Fr; subst f. lia.
    - destruct (nth_error (p_revs s) i) as [t|] eqn:It; [|discriminate]. unfold rev_next in E. destruct D as [D|D]; [|discriminate].
      destruct (Z.ltb_spec t 0); [discriminate|]. destruct (frame_at (p_nb s) t) as [g| |] eqn:Fr; try discriminate. cbn [snd] in E. inversion E; subst g.
      unfold frame_at in Fr. destruct (Z.ltb_spec t 0); [lia|]. cbn [andb] in Fr. destruct (Z.ltb_spec (p_nb s) t); [discriminate|]. inversion Fr; subst f. cbn [appending]. lia.
    - cbn [snd] in E. destruct (names_argument _); [|discriminate]. destruct (accessed _ _); discriminate.
    - cbn [snd] in E. destruct (index_argument _); [|discriminate]. destruct (names_argument _); [|discriminate]. destruct (accessed _ _); discriminate. }
  clear N'. set (e := fst (pfrun (fst (pfstep s o)) h')) in *. clearbody e. cbn [pfstep snd]. set (nb := p_nb e) in *. clearbody nb.
  assert (A : accessed f nb = Ok f).
  { rewrite accessed_exact by lia. destruct (Z.leb_spec (- nb) f); [|lia]. destruct (Z.ltb_spec f nb); [|lia]. cbn [andb]. now rewrite Z.mod_small. }
  rewrite A. destruct Hl as [[-> ->]|(t & -> & ->)]; [reflexivity|]. cbn [names_argument load_names]. now rewrite load_strings_all.
Qed.
Print Assumptions C174_use.
(** [read] and [write] of the file take numbers like items, without one past the end. *)
Theorem C174_access n0 h k names l : 0 <= n0 -> index64 k -> let n := n0 + Z.of_nat (count appending h) in
  (names = None /\ l = None) \/ (exists t, names = Some (NSeq (map Some t)) /\ l = Some t) ->
  snd (pfstep (fst (pfrun (opened_with n0) h)) (PAccess (ANum (NInt k)) names)) = if (- n <=? k) && (k <? n) then OAccess (k mod n) l else ORaised FileIOError.
Proof.
  intros H R n Hl. pose proof (pfrun_nb h (opened_with n0)) as N. cbn [opened_with p_nb] in N. fold n in N. cbn [pfstep snd]. rewrite N, index_int by exact R. assert (Hn : 0 <= n) by (unfold n; lia). clearbody n. clear N.
  assert (E : names_argument names = Some l).
  { destruct Hl as [[-> ->]|(t & -> & ->)]; [reflexivity|]. cbn [names_argument load_names]. now rewrite load_strings_all. }
  rewrite E, accessed_exact by exact Hn. now destruct (_ && _).
Qed.
Print Assumptions C174_access.
(** A single string is not taken for a list of names, nor are lists with other items. *)
Theorem C174_names s f a x : (exists t, x = NText t) \/ x = NOther \/ (exists l, x = NSeq l /\ In None l) ->
  snd (pfstep s (PUse f (Some x))) = OTypeError /\ snd (pfstep s (PAccess a (Some x))) = OTypeError.
Proof.
  intros H. assert (E : names_argument (Some x) = None).
  { destruct H as [[t ->]|[->|(l & -> & I)]]; try reflexivity. cbn [names_argument load_names]. now rewrite load_strings_not. }
  cbn [pfstep snd]. rewrite E. split; [reflexivity|]. now destruct (index_argument a).
Qed.
Print Assumptions C174_names.
Example C174_names_case : snd (pfrun (opened_with 2) [PUse 1 (Some (NSeq [Some "a"; Some "b"])); PUse 1 (Some (NText "ab")); PAccess (ANum (NInt (-2))) None; PAccess (ANum (NInt 2)) None; PUse 0 (Some (NSeq []))])%string =
  [OAccess 1 (Some ["a"; "b"]); OTypeError; OAccess 0 None; ORaised FileIOError; OAccess 0 (Some [])]%string.
Proof. reflexivity. Qed.

(** C175: the index one past the end gives a frame, which cannot be read. *)
Theorem C175_one_past_refuted n0 h : 0 <= n0 -> let n := n0 + Z.of_nat (count appending h) in n < 2 ^ 63 ->
  snd (pfstep (fst (pfrun (opened_with n0) h)) (PItem (ANum (NInt n)))) = OFrame n /\
  snd (pfstep (fst (pfrun (opened_with n0) h)) (PUse n None)) = ORaised FileIOError.
Proof.
  intros H n R. pose proof (pfrun_nb h (opened_with n0)) as N. cbn [opened_with p_nb] in N. fold n in N. cbn [pfstep snd]. rewrite N. assert (Hn : 0 <= n) by (unfold n; lia). clearbody n. clear N.
  rewrite index_int by lia. split.
  - unfold frame_at. destruct (Z.ltb_spec n 0); [lia|]. cbn [andb]. now rewrite Z.ltb_irrefl.
  - cbn [names_argument]. rewrite accessed_exact by lia. rewrite Z.ltb_irrefl, andb_false_r. reflexivity.
Qed.
Print Assumptions C175_one_past_refuted.
(** C175: the constructor of frames takes every number. *)
Theorem C175_constructor_refuted s k : index64 k -> snd (pfstep s (PFrame (ANum (NInt k)))) = OFrame k.
Proof. intros R. cbn [pfstep snd]. now rewrite index_int. Qed.
Print Assumptions C175_constructor_refuted.
(** C175: an index far out raises an exception that is not [IndexError]. *)
Theorem C175_exception_refuted : exists n0 k e, 0 <= n0 < k /\ snd (pfstep (opened_with n0) (PItem (ANum (NInt k)))) = ORaised e /\ e <> OutOfRange.
Proof. exists 2, 5, FileIOError. split; [lia|]. split; [reflexivity|discriminate]. Qed.
Print Assumptions C175_exception_refuted.
Example C175_case : snd (pfrun (opened_with 2) [PItem (ANum (NInt 2)); PItem (ANum (NInt 3)); PFrame (ANum (NInt 7)); PUse 7 None; PUse (-1) None]) =
  [OFrame 2; ORaised FileIOError; OFrame 7; ORaised FileIOError; OAccess 1 None].
Proof. reflexivity. Qed.
