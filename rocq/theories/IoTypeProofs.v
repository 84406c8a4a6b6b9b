(** Lemmas about typed fields in files. *)
From Coq Require Import String.
From Verif Require Import Base CIntModel GridSpec GridModel StridedModel LayoutModel LayoutSpec FrameModel NetCDFModel NetCDFSpec NetCDFProofs NetCDFProofs2 NetCDFProofs3 NetCDFProofs4 NetCDFProofs5 NetCDFProofs6.
From Verif Require Import IoTypeModel IoTypeSpec.
Local Open Scope Z_scope.
Local Open Scope list_scope.

(** ** Elements of a memory *)
Definition rmap {A B} (f : A -> B) (r : res A) : res B := match r with Ok a => Ok (f a) | Err x => Err x | UB => UB end.

Lemma elements_length e mem n : 0 < e -> length mem = (n * Z.to_nat e)%nat -> length (elements e mem) = n.
Proof. intros P L. unfold elements. rewrite map_length, seq_length, L. apply Nat.div_mul. lia. Qed.
Lemma elements_nth e mem n i : 0 < e -> length mem = (n * Z.to_nat e)%nat ->
  nth_error (elements e mem) i = if (i <? n)%nat then Some (element e mem i) else None.
Proof.
  intros P L. unfold elements. rewrite L, Nat.div_mul by lia. destruct (Nat.ltb_spec i n) as [H|H].
  - rewrite (map_nth_error (element e mem) i (seq 0 n) (d := i)); [reflexivity|]. rewrite (nth_error_nth' _ 0%nat) by (rewrite seq_length; lia). now rewrite seq_nth by lia.
  - apply nth_error_None. rewrite map_length, seq_length. lia.
Qed.
Lemma rd_elements e mem i : whole e mem -> rd (elements e mem) i = bload mem (e * i) e.
Proof.
  intros [P [n L]]. unfold rd, bload. destruct (Z.ltb_spec i 0) as [H|H].
  - replace (e * i <? 0) with true by (symmetry; apply Z.ltb_lt; nia). reflexivity.
  - replace (e * i <? 0) with false by (symmetry; apply Z.ltb_ge; nia). cbn [orb]. rewrite (elements_nth e mem n) by assumption.
    rewrite L, Nat2Z.inj_mul, Z2Nat.id by lia. destruct (Nat.ltb_spec (Z.to_nat i) n) as [B|B].
    + replace (Z.of_nat n * e <? e * i + e) with false by (symmetry; apply Z.ltb_ge; nia). f_equal. unfold element. f_equal. f_equal.
      rewrite Z2Nat.inj_mul by lia. lia.
    + replace (Z.of_nat n * e <? e * i + e) with true by (symmetry; apply Z.ltb_lt; nia). reflexivity.
Qed.
Lemma bstore_length mem a x m : bstore mem a x = Ok m -> length m = length mem.
Proof.
  unfold bstore. destruct (Z.ltb_spec a 0) as [H|H]; cbn [orb]; [discriminate|]. destruct (Z.ltb_spec (Z.of_nat (length mem)) (a + Z.of_nat (length x))) as [B|B]; [discriminate|].
  intros E. injection E as <-. rewrite !app_length, firstn_length, skipn_length. lia.
Qed.
Lemma nth_firstn_in {A} (l : list A) n i d : (i < n)%nat -> nth i (firstn n l) d = nth i l d.
Proof. revert n i. induction l as [|x l IH]; intros [|n] [|i] H; cbn; try lia; try reflexivity. apply IH. lia. Qed.
Lemma nth_skipn {A} (l : list A) n i d : nth i (skipn n l) d = nth (n + i) l d.
Proof. revert l. induction n as [|n IH]; intros [|x l]; cbn; try reflexivity; [now destruct i|apply IH]. Qed.
Lemma element_nth e mem n i k : 0 < e -> length mem = (n * Z.to_nat e)%nat -> (i < n)%nat -> (k < Z.to_nat e)%nat -> nth k (element e mem i) 0 = nth (i * Z.to_nat e + k) mem 0.
Proof. intros. unfold element. rewrite nth_firstn_in by lia. apply nth_skipn. Qed.
Lemma element_length e mem n i : 0 < e -> length mem = (n * Z.to_nat e)%nat -> (i < n)%nat -> length (element e mem i) = Z.to_nat e.
Proof. intros P L H. unfold element. rewrite firstn_length, skipn_length, L. nia. Qed.
Lemma elements_upd e mem n j x : 0 < e -> length mem = (n * Z.to_nat e)%nat -> (j < n)%nat -> length x = Z.to_nat e ->
  elements e (firstn (j * Z.to_nat e) mem ++ x ++ skipn (j * Z.to_nat e + length x) mem) = upd (elements e mem) j x.
Proof.
  intros P L H X. set (E := Z.to_nat e) in *. assert (E0 : (0 < E)%nat) by (unfold E; lia).
  set (m := firstn (j * E) mem ++ x ++ skipn (j * E + length x) mem).
  assert (Lm : length m = (n * E)%nat) by (unfold m; rewrite !app_length, firstn_length, skipn_length, L, X; nia).
  apply (@nth_ext bytes _ _ [] []).
  - rewrite upd_length, !(elements_length e _ n) by assumption. reflexivity.
  - intros i Hi. rewrite (elements_length e m n) in Hi by assumption.
    assert (A : forall b, length b = (n * E)%nat -> nth i (elements e b) [] = element e b i).
    { intros b Lb. apply nth_error_nth. rewrite (elements_nth e b n) by assumption. now replace (i <? n)%nat with true by (symmetry; now apply Nat.ltb_lt). }
    rewrite A by exact Lm. destruct (Nat.eq_dec i j) as [->|Nij].
    + rewrite nth_upd_same by (rewrite (elements_length e mem n) by assumption; lia). unfold element. fold E. unfold m.
      rewrite skipn_app. rewrite skipn_all2 by (rewrite firstn_length; nia). rewrite firstn_length, L. replace (j * E - Nat.min (j * E) (n * E))%nat with 0%nat by nia.
      cbn [skipn app]. rewrite firstn_app, X, Nat.sub_diag, firstn_O, app_nil_r. apply firstn_all2. lia.
    + rewrite nth_upd_other by congruence. rewrite A by exact L. apply (nth_ext _ _ 0 0).
      * rewrite !(element_length e _ n) by assumption. reflexivity.
      * rewrite (element_length e m n) by assumption. fold E. intros k Hk. rewrite !(element_nth e _ n) by assumption. fold E. unfold m.
        assert (C : (i < j \/ j < i)%nat) by lia. destruct C as [C|C].
        -- rewrite app_nth1 by (rewrite firstn_length, L; nia). apply nth_firstn_in. nia.
        -- rewrite app_nth2 by (rewrite firstn_length, L; nia). rewrite firstn_length, L. replace (Nat.min (j * E) (n * E)) with (j * E)%nat by nia.
           rewrite app_nth2 by nia. rewrite X, nth_skipn. f_equal. nia.
Qed.
Lemma wr_elements e mem i x : whole e mem -> Z.of_nat (length x) = e -> rmap (elements e) (bstore mem (e * i) x) = wr (elements e mem) i x.
Proof.
  intros [P [n L]] X. unfold bstore, wr. rewrite (elements_length e mem n) by assumption. destruct (Z.ltb_spec i 0) as [H|H].
  - replace (e * i <? 0) with true by (symmetry; apply Z.ltb_lt; nia). reflexivity.
  - replace (e * i <? 0) with false by (symmetry; apply Z.ltb_ge; nia). cbn [orb]. rewrite L, X, Nat2Z.inj_mul, Z2Nat.id by lia.
    destruct (Z.leb_spec (Z.of_nat n) i) as [B|B].
    + replace (Z.of_nat n * e <? e * i + e) with true by (symmetry; apply Z.ltb_lt; nia). reflexivity.
    + replace (Z.of_nat n * e <? e * i + e) with false by (symmetry; apply Z.ltb_ge; nia). cbn [rmap]. f_equal.
      replace (Z.to_nat (e * i)) with (Z.to_nat i * Z.to_nat e)%nat by (rewrite Z2Nat.inj_mul by lia; lia). apply (elements_upd e mem n); try assumption; lia.
Qed.
Lemma whole_length e a b : whole e a -> length b = length a -> whole e b.
Proof. intros [P [n L]] E. split; [exact P|]. exists n. congruence. Qed.

(** ** Transfers *)
Lemma bput_loop_eq e name start stride imap p mem is : whole e mem -> forall g,
  bput_loop e name start stride imap (e * p) mem is g = put_loop name start stride imap p (elements e mem) is g.
Proof.
  intros W. induction is as [|i is IH]; intros g; cbn [bput_loop put_loop]; [reflexivity|]. rewrite rd_elements by exact W.
  replace (e * p + e * linear_index i imap) with (e * (p + linear_index i imap)) by ring. destruct (bload mem (e * (p + linear_index i imap)) e); cbn [bind]; auto.
Qed.
Lemma bput_varm_eq e v start count stride imap p mem file : whole e mem ->
  bput_varm e v start count stride imap (e * p) mem file = put_varm v start count stride imap p (elements e mem) file.
Proof. intros W. unfold bput_varm, put_varm. rewrite bput_loop_eq by exact W. reflexivity. Qed.
Lemma bget_loop_eq e (g : list Z -> bytes) start stride imap p is : (forall i, Z.of_nat (length (g i)) = e) -> forall mem, whole e mem ->
  rmap (elements e) (bget_loop e g start stride imap (e * p) is mem) = get_loop g start stride imap p is (elements e mem) /\
  forall m, bget_loop e g start stride imap (e * p) is mem = Ok m -> length m = length mem.
Proof.
  intros G. induction is as [|i is IH]; intros mem W; cbn [bget_loop get_loop]; [split; [reflexivity|intros m E; injection E as <-; reflexivity]|].
  rewrite <- wr_elements by (try exact W; apply G). replace (e * p + e * linear_index i imap) with (e * (p + linear_index i imap)) by ring.
  destruct (bstore mem (e * (p + linear_index i imap)) (g (place_of start stride i))) as [m1| |] eqn:S; cbn [bind rmap]; [|split; [reflexivity|discriminate]..].
  pose proof (bstore_length _ _ _ _ S) as L1. destruct (IH m1 (whole_length e mem m1 W L1)) as [I1 I2]. split; [exact I1|]. intros m E. rewrite (I2 m E). exact L1.
Qed.
Lemma bget_varm_eq e v start count stride imap file p mem : whole e mem -> typed e (v_name v) file ->
  rmap (elements e) (bget_varm e v start count stride imap file (e * p) mem) = get_varm v start count stride imap file p (elements e mem) /\
  forall m, bget_varm e v start count stride imap file (e * p) mem = Ok m -> length m = length mem.
Proof.
  intros W T. unfold bget_varm, get_varm. destruct (negb (enough v start && enough v count && enough v stride && enough v imap)); [split; [reflexivity|discriminate]|].
  destruct (negb (all_within (Some (recs file)) (v_dims v) start count stride)); [split; [reflexivity|discriminate]|]. now apply bget_loop_eq.
Qed.
Lemma bwrite_global_eq e nb k v h f mem file : whole e mem -> bwrite_global e nb k v h f mem file = write_global nb k v h f (elements e mem) file.
Proof.
  intros W. unfold bwrite_global, write_global. destruct (handle_frame k nb); cbn [bind]; try reflexivity. destruct (get_start_global v f a h); cbn [bind]; try reflexivity.
  destruct (get_count_global v f); cbn [bind]; try reflexivity. destruct (get_nc_stride v); cbn [bind]; try reflexivity. destruct (get_nc_imap v f); cbn [bind]; try reflexivity.
  rewrite <- bput_varm_eq by exact W. now rewrite Z.mul_0_r.
Qed.
Lemma bread_global_eq e nb k v h f file mem : whole e mem -> typed e (v_name v) file ->
  rmap (elements e) (bread_global e nb k v h f file mem) = read_global nb k v h f file (elements e mem) /\
  forall m, bread_global e nb k v h f file mem = Ok m -> length m = length mem.
Proof.
  intros W T. unfold bread_global, read_global. destruct (handle_frame k nb); cbn [bind]; [|split; [reflexivity|discriminate]..]. destruct (get_start_global v f a h); cbn [bind]; [|split; [reflexivity|discriminate]..].
  destruct (get_count_global v f); cbn [bind]; [|split; [reflexivity|discriminate]..]. destruct (get_nc_stride v); cbn [bind]; [|split; [reflexivity|discriminate]..].
  destruct (get_nc_imap v f); cbn [bind]; [|split; [reflexivity|discriminate]..].
  pose proof (bget_varm_eq e v a0 a1 a2 a3 file 0 mem W T) as X. rewrite Z.mul_0_r in X. exact X.
Qed.
Lemma bwrite_ranks_eq e nb k v h ranks : (forall f m, In (f, m) ranks -> whole e m) -> forall file,
  bwrite_ranks e nb k v h ranks file = write_ranks nb k v h (map (fun r => (fst r, elements e (snd r))) ranks) file.
Proof.
  induction ranks as [|[f m] r IH]; intros W file; cbn [bwrite_ranks write_ranks map fst snd]; [reflexivity|]. rewrite bwrite_global_eq by (apply (W f); now left).
  destruct (write_global nb k v h f (elements e m) file); cbn [bind]; try reflexivity. apply IH. intros f' m' I. apply (W f'). now right.
Qed.

(** ** Types *)
Lemma type_sizes P c t : real_platform P -> typeid_to_nc_type P c = Ok t -> ext_size t = csize P c /\ nckind t = ckind c /\ element_bytes P t = Ok (csize P c).
Proof.
  destruct P as [a b]. unfold real_platform. cbn [sz_int sz_index]. intros [A B].
  destruct c; cbn [typeid_to_nc_type]; intros E; try discriminate; injection E as <-; unfold mu_nc_int, mu_nc_uint, mu_nc_index, element_bytes, csize; cbn [sz_int sz_index];
    destruct A as [-> |[-> | ->]], B as [-> | ->]; vm_compute; auto.
Qed.
Lemma csize_pos P c : real_platform P -> 0 < csize P c.
Proof. intros [A B]. destruct c; unfold csize; lia. Qed.

(** ** Local fields *)
Lemma bput_requests_eq P t e v f frame h stride imap mem : whole e mem -> element_bytes P t = Ok e -> forall reqs p file,
  bput_requests P t e v f frame h stride imap reqs (e * p) mem file = put_requests v f frame h stride imap reqs p (elements e mem) file.
Proof.
  intros W B. induction reqs as [|o r IH]; intros p file; cbn [bput_requests put_requests]; [reflexivity|].
  destruct (mapm (start_local1 v frame h o) (v_dims v)); cbn [bind]; try reflexivity. destruct (mapm (count_local1 f) (v_dims v)) as [count| |]; cbn [bind]; try reflexivity.
  rewrite bput_varm_eq by exact W. destruct (put_varm v a count stride imap p (elements e mem) file); cbn [bind]; try reflexivity. rewrite B. cbn [bind].
  rewrite <- Z.mul_add_distr_l. apply IH.
Qed.
Lemma bget_requests_eq P t e v f frame h stride imap file : typed e (v_name v) file -> element_bytes P t = Ok e -> forall reqs p mem, whole e mem ->
  rmap (elements e) (bget_requests P t e v f frame h stride imap reqs file (e * p) mem) = get_requests v f frame h stride imap reqs file p (elements e mem) /\
  forall m, bget_requests P t e v f frame h stride imap reqs file (e * p) mem = Ok m -> length m = length mem.
Proof.
  intros T B. induction reqs as [|o r IH]; intros p mem W; cbn [bget_requests get_requests]; [split; [reflexivity|intros m E; injection E as <-; reflexivity]|].
  destruct (mapm (start_local1 v frame h o) (v_dims v)) as [start| |]; cbn [bind]; [|split; [reflexivity|discriminate]..]. destruct (mapm (count_local1 f) (v_dims v)) as [count| |]; cbn [bind]; [|split; [reflexivity|discriminate]..].
  destruct (bget_varm_eq e v start count stride imap file p mem W T) as [G1 G2]. rewrite <- G1.
  destruct (bget_varm e v start count stride imap file (e * p) mem) as [m1| |]; cbn [bind rmap]; [|split; [reflexivity|discriminate]..]. rewrite B. cbn [bind].
  rewrite <- Z.mul_add_distr_l. specialize (G2 m1 eq_refl). destruct (IH (p + get_nb_from_shape count) m1 (whole_length e mem m1 W G2)) as [I1 I2].
  split; [exact I1|]. intros m E. rewrite (I2 m E). exact G2.
Qed.
Lemma bwrite_local_eq P t e nb k v h f pixels mem file : whole e mem -> element_bytes P t = Ok e ->
  bwrite_local P t e nb k v h f pixels mem file = write_local nb k v h f pixels (elements e mem) file.
Proof.
  intros W B. unfold bwrite_local, write_local. destruct (handle_frame k nb) as [frame| |]; cbn [bind]; try reflexivity. destruct (frame <? 0); [reflexivity|].
  destruct (get_nc_stride v); cbn [bind]; try reflexivity. destruct (get_nc_imap v f); cbn [bind]; try reflexivity. rewrite <- (bput_requests_eq P t) by assumption. now rewrite Z.mul_0_r.
Qed.
Lemma bread_local_eq P t e nb k v h f pixels file mem : whole e mem -> element_bytes P t = Ok e -> typed e (v_name v) file ->
  rmap (elements e) (bread_local P t e nb k v h f pixels file mem) = read_local nb k v h f pixels file (elements e mem) /\
  forall m, bread_local P t e nb k v h f pixels file mem = Ok m -> length m = length mem.
Proof.
  intros W B T. unfold bread_local, read_local. destruct (handle_frame k nb) as [frame| |]; cbn [bind]; [|split; [reflexivity|discriminate]..]. destruct (frame <? 0); [split; [reflexivity|discriminate]|].
  destruct (get_nc_stride v) as [stride| |]; cbn [bind]; [|split; [reflexivity|discriminate]..]. destruct (get_nc_imap v f) as [imap| |]; cbn [bind]; [|split; [reflexivity|discriminate]..].
  pose proof (bget_requests_eq P t e v f frame h stride imap file T B (requests pixels) 0 mem W) as X. rewrite Z.mul_0_r in X. exact X.
Qed.
Lemma bwrite_local_ranks_eq P t e nb k v h ranks : element_bytes P t = Ok e -> (forall f px m, In (f, px, m) ranks -> whole e m) -> forall file,
  bwrite_local_ranks P t e nb k v h ranks file = write_local_ranks nb k v h (map (fun r => (fst r, elements e (snd r))) ranks) file.
Proof.
  intros B. induction ranks as [|[[f px] m] r IH]; intros W file; cbn [bwrite_local_ranks write_local_ranks map fst snd]; [reflexivity|].
  rewrite bwrite_local_eq by (try exact B; apply (W f px); now left).
  destruct (write_local nb k v h f px (elements e m) file); cbn [bind]; try reflexivity. apply IH. intros f' px' m' I. apply (W f' px'). now right.
Qed.
Lemma hidden_fields_elements e ws : forall counts rank, hidden_fields counts rank (map (as_elements e) ws) = hidden_fields counts rank ws.
Proof. induction ws as [|w r IH]; intros; cbn [map hidden_fields]; [reflexivity|]. rewrite IH. reflexivity. Qed.
Lemma counts_elements e ws : counts_of (map (as_elements e) ws) = counts_of ws.
Proof. unfold counts_of. rewrite map_map. apply map_ext. reflexivity. Qed.
Lemma bwrite_collection_eq P t e nb k hv v h ws hfile file : element_bytes P t = Ok e -> (forall w, In w ws -> whole e (pr_mem w)) ->
  bwrite_collection P t e nb k hv v h ws hfile file = write_collection nb k hv v h (map (as_elements e) ws) hfile file.
Proof.
  intros B W. unfold bwrite_collection, write_collection. rewrite counts_elements, hidden_fields_elements.
  destruct (hidden_fields (counts_of ws) 0 ws) as [hs| |]; cbn [bind]; try reflexivity. rewrite map_map.
  replace (map (fun x => pr_sub (as_elements e x)) ws) with (map pr_sub ws) by (apply map_ext; reflexivity).
  destruct (write_ranks nb 0 hv 0 (combine (map pr_sub ws) hs) hfile); cbn [bind]; try reflexivity.
  rewrite bwrite_local_ranks_eq; [|exact B|].
  - rewrite map_map. f_equal. f_equal. clear -ws. revert hs. induction ws as [|w r IH]; intros [|x hs]; cbn; try reflexivity. f_equal. apply IH.
  - intros f px m I. apply in_map_iff in I. destruct I as ([w x] & E & I). injection E as <- <- <-. apply W. now apply in_combine_l in I.
Qed.

(** ** Types of the cells *)
Lemma typed_write e e' nb k v h f mem name file file' : whole e' mem -> typed e name file -> (v_name v = name -> e' = e) ->
  bwrite_global e' nb k v h f mem file = Ok file' -> typed e name file'.
Proof.
  intros W T N. unfold bwrite_global. destruct (handle_frame k nb); cbn [bind]; try discriminate. destruct (get_start_global v f a h) as [start| |]; cbn [bind]; try discriminate.
  destruct (get_count_global v f) as [count| |]; cbn [bind]; try discriminate. destruct (get_nc_stride v) as [stride| |]; cbn [bind]; try discriminate. destruct (get_nc_imap v f) as [imap| |]; cbn [bind]; try discriminate.
  unfold bput_varm. destruct (negb _); [discriminate|]. destruct (negb _); [discriminate|].
  assert (X : forall is g g', (forall i, Z.of_nat (length (g name i)) = e) -> bput_loop e' (v_name v) start stride imap 0 mem is g = Ok g' -> forall i, Z.of_nat (length (g' name i)) = e).
  { induction is as [|i is IH]; intros g g' G E; cbn [bput_loop] in E; [injection E as <-; exact G|].
    destruct (bload mem (0 + e' * linear_index i imap) e') as [x| |] eqn:L; cbn [bind] in E; try discriminate. refine (IH _ _ _ E).
    intros j. unfold set_cell. destruct (String.eqb_spec name (v_name v)) as [En|En]; cbn [andb]; [|apply G]. destruct (zlist_eqb j _); [|apply G].
    rewrite <- (N (eq_sym En)). destruct W as [P _]. unfold bload in L. destruct (Z.ltb_spec (0 + e' * linear_index i imap) 0); cbn [orb] in L; [discriminate|].
    destruct (Z.ltb_spec (Z.of_nat (length mem)) (0 + e' * linear_index i imap + e')); [discriminate|]. injection L as <-. rewrite firstn_length, skipn_length. lia. }
  destruct (bput_loop e' (v_name v) start stride imap 0 mem (indices count) (cells file)) as [g| |] eqn:E; cbn [bind]; try discriminate. intros F. injection F as <-. exact (X _ _ _ T E).
Qed.
Lemma typed_ranks e nb k v h ranks name : (forall f m, In (f, m) ranks -> whole e m) -> forall file file', typed e name file -> 
  bwrite_ranks e nb k v h ranks file = Ok file' -> typed e name file'.
Proof.
  induction ranks as [|[f m] r IH]; intros W file file' T E; cbn [bwrite_ranks] in E; [injection E as <-; exact T|].
  destruct (bwrite_global e nb k v h f m file) as [file1| |] eqn:E1; cbn [bind] in E; try discriminate.
  apply (IH (fun f' m' I => W f' m' (or_intror I)) file1 file' (typed_write e e nb k v h f m name file file1 (W f m (or_introl eq_refl)) T (fun _ => eq_refl) E1) E).
Qed.
Lemma registered_name hist name f v : registered hist name f v -> v_name v = name.
Proof. intros (seen & s & E). apply register_global_inv in E. destruct E as [(-> & _) _]. reflexivity. Qed.
Lemma blater_later P ty v fr h a b : real_platform P -> blater P ty v fr h a b ->
  later v fr h a b /\ forall name, typed (ext_size (ty name)) name a -> typed (ext_size (ty name)) name b.
Proof.
  intros RP. induction 1 as [file|file file1 file2 c' name' hist' f' v' m' nb' k' fr' h' L [IH1 IH2] TY [W D] RG EN AC N E]; [split; [constructor|auto]|].
  destruct (type_sizes P c' _ RP TY) as [S _]. rewrite <- S in W, D. split.
  - rewrite (bwrite_global_eq _ _ _ _ _ _ _ _ W) in E. now apply (later_write v fr h file file1 file2 name' hist' f' v' (elements (ext_size (ty name')) m') nb' k' fr' h').
  - intros name T. apply (typed_write (ext_size (ty name)) (ext_size (ty name')) nb' k' v' h' f' m' name file1 file2 W (IH2 name T)); [|exact E].
    intros En. rewrite (registered_name _ _ _ _ RG) in En. now rewrite En.
Qed.
Lemma holds_elements e f mem c q x a : whole e mem -> holds f (elements e mem) c q x a <-> holds_bytes e f mem c q x a.
Proof. intros W. unfold holds, holds_bytes. split; intros (s & E & H); exists s; (split; [exact E|]); [rewrite <- rd_elements by exact W|rewrite rd_elements by exact W]; exact H. Qed.

Lemma bytes_roundtrip P ty c hist name v vr (writers : list (nfield * bytes)) reader mem nb k fr h file :
  real_platform P -> typeid_to_nc_type P c = Ok (ty name) -> typed (csize P c) name file ->
  writers <> [] ->
  (forall f m, In (f, m) writers -> in_bytes P c f m /\ registered hist name f v /\ same_array f reader) ->
  decomposition writers -> in_bytes P c reader mem -> registered hist name reader vr -> entry hist h -> accessed k nb = Ok fr ->
  exists file1, bwrite_ranks (ext_size (ty name)) nb k v h writers file = Ok file1 /\
    forall file2 nb' k', blater P ty v fr h file1 file2 -> accessed k' nb' = Ok fr ->
    exists mem', bread_global (ext_size (ty name)) nb' k' vr h reader file2 mem = Ok mem' /\ length mem' = length mem /\
    forall f m i q x, In (f, m) writers -> in_shape (l_comp (nf_lay f)) i -> 0 <= q < l_nsub (nf_lay f) -> owns f x -> owns reader x ->
      exists a, holds_bytes (csize P c) (nf_lay f) m i q (shift (nf_loc f) x) a /\
                holds_bytes (csize P c) (nf_lay reader) mem' i q (shift (nf_loc reader) x) a.
Proof.
  intros RP TY TF NE WR DC [RW RD] RR EN AC. destruct (type_sizes P c _ RP TY) as (S & _ & _). rewrite S. set (e := csize P c) in *.
  assert (WW : forall f m, In (f, m) writers -> whole e m) by (intros f m I; apply (WR f m I)).
  destruct (roundtrip hist name v vr (map (fun r => (fst r, elements e (snd r))) writers) reader (elements e mem) nb k fr h file) as (file1 & E1 & X); try assumption.
  - intros E. apply map_eq_nil in E. contradiction.
  - intros f m I. apply in_map_iff in I. destruct I as ([f0 m0] & E & I). injection E as <- <-. destruct (WR f0 m0 I) as ([_ D] & R & SA). auto.
  - clear -DC. unfold decomposition in *. induction DC as [|a l F H IH]; cbn [map]; constructor; [|exact IH]. rewrite Forall_map. cbn [fst]. exact F.
  - exists file1. rewrite (bwrite_ranks_eq e nb k v h writers WW file). split; [exact E1|]. intros file2 nb' k' L AC'.
    destruct (blater_later P ty v fr h file1 file2 RP L) as [L1 L2].
    assert (T1 : typed e name file1) by (apply (typed_ranks e nb k v h writers name WW file file1 TF); now rewrite (bwrite_ranks_eq e nb k v h writers WW file)).
    assert (T2 : typed e (v_name vr) file2) by (rewrite (registered_name _ _ _ _ RR); rewrite <- S; apply L2; rewrite S; exact T1).
    destruct (X file2 nb' k' L1 AC') as [_ (m2 & E2 & LM & V)]. destruct (bread_global_eq e nb' k' vr h reader file2 mem RW T2) as [B1 B2].
    rewrite E2 in B1. destruct (bread_global e nb' k' vr h reader file2 mem) as [mem'| |] eqn:EM; cbn [rmap] in B1; try discriminate.
    specialize (B2 mem' eq_refl). apply (f_equal (fun r => match r with Ok a => a | _ => m2 end)) in B1. cbn beta iota in B1. exists mem'. split; [reflexivity|]. split; [exact B2|].
    intros f m i q x I Hi Hq Ox Or. destruct (V f (elements e m) i q x) as (a & A1 & A2); try assumption; [apply in_map_iff; exists (f, m); auto|].
    exists a. rewrite <- B1 in A2. split; apply holds_elements; try assumption; [now apply (WW f)|now apply (whole_length e mem)].
Qed.
