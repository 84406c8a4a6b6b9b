(** C117-C119: the element types of fields in NetCDF files. *)
From Coq Require Import String Sorting.Sorted.
From Verif Require Import Base CIntModel GridModel GridSpec StridedModel LayoutModel LayoutSpec LayoutProofs LayoutProofs2 FrameModel.
From Verif Require Import NetCDFModel NetCDFSpec NetCDFProofs10 NetCDFProps IoTypeModel IoTypeSpec IoTypeProofs IoTypeProofs2.
Local Open Scope string_scope.
Local Open Scope Z_scope.
Local Open Scope list_scope.

(** ** Cases *)
Definition usual : platform := mk_platform 4 8.
Lemma usual_real : real_platform usual.
Proof. split; cbn; auto. Qed.
(** A scalar field on two pixels, and one on the two next to them. *)
Definition pair_at (x : Z) : nfield := part ColMajor [2; 1] [x; 0] [1] 1.
Lemma pair_distributed {A} x (m : list A) : x = 0 \/ x = 2 -> (2 <= length m)%nat -> distributed (pair_at x) m.
Proof.
  intros X L.
  destruct (global_order_dense ColMajor Automatic [2; 1] [] [1] 1 (grid ColMajor [2; 1] [1] 1)) as ((Sn & _) & _);
    [vm_compute; reflexivity|repeat constructor ..|now left|].
  split; [exact Sn|]. split; [reflexivity|]. split; [reflexivity|]. split; [reflexivity|]. split.
  - intros [|[|i]] Hi; [|vm_compute; repeat split; discriminate|cbn in Hi; lia]. destruct X as [-> | ->]; vm_compute; repeat split; discriminate.
  - change (buffer_scalars (nf_lay (pair_at x))) with 2. lia.
Qed.
Lemma pair_registered x : registered None "u" (pair_at x) (var_of None (pair_at 0)).
Proof. exists [0; 0; 0]. eexists. vm_compute. reflexivity. Qed.
Lemma pair_in_bytes c x m : c <> CComplex -> x = 0 \/ x = 2 -> Z.of_nat (length m) = 2 * csize usual c -> in_bytes usual c (pair_at x) m.
Proof.
  intros NC X L. pose proof (csize_pos usual c usual_real) as P. assert (LM : length m = (2 * Z.to_nat (csize usual c))%nat) by lia.
  split; [split; [exact P|exists 2%nat; exact LM]|]. apply pair_distributed; [exact X|]. rewrite (elements_length (csize usual c) m 2 P LM). lia.
Qed.

(** ** C117 *)

(** The type of a variable has the size and the kind of the elements of the
    field; so has the type for MPI, and the pointer into the memory of a local
    field advances by this size. *)
Theorem C117_types P c t : real_platform P -> typeid_to_nc_type P c = Ok t ->
  ext_size t = csize P c /\ nckind t = ckind c /\ element_bytes P t = Ok (csize P c).
Proof. exact (type_sizes P c t). Qed.
Print Assumptions C117_types.
Theorem C117_mpi_types P c t : sz_int P = 4 -> sz_index P = 4 \/ sz_index P = 8 -> typeid_to_nc_type P c = Ok t ->
  exists m, nc_type_to_mpi t = Ok m /\ mpi_size P m = csize P c /\ mpikind m = ckind c.
Proof. exact (mpi_types P c t). Qed.
Print Assumptions C117_mpi_types.
Example C117_types_case : map (typeid_to_nc_type usual) [CInt; CUint; CIndex; CReal] = [Ok NcInt; Ok NcUint; Ok NcInt64; Ok NcDouble].
Proof. reflexivity. Qed.

(** As C38_roundtrip, byte by byte: processes write their parts of a field with
    elements of type [c]; after any number of writes of fields of any type to
    other variables, frames or entries of the history, a process with another
    part reads for every value it owns the bytes that were written. *)
Theorem C117_roundtrip P ty c hist name v vr (writers : list (nfield * bytes)) reader mem nb k fr h file :
  real_platform P -> typeid_to_nc_type P c = Ok (ty name) -> typed (csize P c) name file ->
  writers <> [] ->
  (forall f m, In (f, m) writers -> in_bytes P c f m /\ registered hist name f v /\ same_array f reader) ->
  decomposition writers -> in_bytes P c reader mem -> registered hist name reader vr -> entry hist h -> accessed k nb = Ok fr ->
  exists file1, bwrite_ranks (ext_size (ty name)) nb k v h writers file = Ok file1 /\
    forall file2 nb' k', blater P ty v fr h file1 file2 -> accessed k' nb' = Ok fr ->
    exists mem', bread_global (ext_size (ty name)) nb' k' vr h reader file2 mem = Ok mem' /\ length mem' = length mem /\
    forall f m i q x, In (f, m) writers -> in_shape (l_comp (nf_lay f)) i -> 0 <= q < l_nsub (nf_lay f) -> owns f x -> owns reader x ->
      exists a, holds_bytes (csize P c) (nf_lay f) m i q (shift (nf_loc f) x) a /\
                holds_bytes (csize P c) (nf_lay reader) mem' i q (shift (nf_loc reader) x) a.
Proof. exact (bytes_roundtrip P ty c hist name v vr writers reader mem nb k fr h file). Qed.
Print Assumptions C117_roundtrip.
(** Two processes write integers of four bytes; then a field of doubles is
    written; a third process reads the integers. *)
Definition ints (x : Z) : bytes := [x; 0; 0; 0; x + 1; 0; 0; 0].
Definition two_types (s : string) : nct := if String.eqb s "u" then NcInt else NcDouble.
Definition four_at : nfield := part RowMajor [4; 1] [0; 0] [1] 1.
Definition other : nfield := mk_nfield "w" "quad" (nf_lay (pair_at 0)) [4; 2] [0; 0].
Definition zeros (n : nat) : ncfile bytes := blank (repeat 0 n).
Example C117_case :
  let writers := [(pair_at 0, ints 1); (pair_at 2, ints 7)] in
  (forall f m, In (f, m) writers -> in_bytes usual CInt f m /\ registered None "u" f (var_of None (pair_at 0)) /\ same_array f four_at) /\
  decomposition writers /\ typed 4 "u" (zeros 4) /\
  (let! file1 := bwrite_ranks 4 1 0 (var_of None (pair_at 0)) 0 writers (zeros 4) in
   let! file2 := bwrite_global 8 1 0 (var_of None other) 0 other (count_up 40 16) file1 in
   bread_global 4 1 0 (var_of None four_at) 0 four_at file2 (repeat 9 16)) = Ok (ints 1 ++ ints 7).
Proof.
  cbv zeta. split; [|split; [|split]].
  - intros f m [E|[E|[]]]; injection E as <- <-; (split; [apply pair_in_bytes; [discriminate|auto|reflexivity]|]); (split; [apply pair_registered|repeat split]).
  - constructor; [|constructor; [constructor|constructor]]. constructor; [|constructor].
    intros x [L H] [_ H']. specialize (H 0%nat). specialize (H' 0%nat). vm_compute in L. cbn [fst] in *.
    change (length _) with 2%nat in H, H'. specialize (H ltac:(lia)). specialize (H' ltac:(lia)). cbn in H, H'. lia.
  - intros i. reflexivity.
  - vm_compute. reflexivity.
Qed.

(** The same for fields of local collections (see C39_roundtrip). *)
Theorem C117_local_roundtrip P t ct lname hv hist name v comp nsub h nb k fr (ws : list (process Z)) hfile file :
  let e := csize P ct in
  real_platform P -> typeid_to_nc_type P ct = Ok t ->
  Z.of_nat (length comp) <= 2 ^ 31 -> entry hist h -> accessed k nb = Ok fr -> 0 < zsum (counts_of ws) ->
  (forall w, In w ws -> whole e (pr_mem w) /\ local_process lname hv (zsum (counts_of ws)) hist name v comp nsub (as_elements e w)) -> tiles ws ->
  (forall w, In w ws -> StronglySorted Z.lt (pr_ids w)) ->
  exists hf g, bwrite_collection P t (ext_size t) nb k hv v h ws hfile file = Ok (hf, g) /\
    forall r nb' k' hf2 g2, whole e (pr_mem r) -> local_process lname hv (zsum (counts_of ws)) hist name v comp nsub (as_elements e r) -> StronglySorted Z.lt (pr_ids r) ->
      (forall x, owns (pr_sub r) x -> exists w, In w ws /\ owns (pr_sub w) x) ->
      (forall x w, In w ws -> owns (pr_sub r) x -> owns (pr_sub w) x ->
         (In (pixel_id (pr_sub w) x) (pr_ids w) <-> In (pixel_id (pr_sub r) x) (pr_ids r))) ->
      accessed k' nb' = Ok fr -> (forall a, cells hf2 lname a = cells hf lname a) -> keeps name hist fr h g g2 -> typed e name g2 ->
      exists mem', bread_collection P t (ext_size t) nb' k' hv v h r hf2 g2 = Ok mem' /\ length mem' = length (pr_mem r) /\
        forall w x jw jr c q, In w ws -> pixel_at w jw x -> pixel_at r jr x -> in_shape comp c -> 0 <= q < nsub ->
          exists a, holds_bytes e (nf_lay (pr_field w)) (pr_mem w) c q [Z.of_nat jw] a /\
                    holds_bytes e (nf_lay (pr_field r)) mem' c q [Z.of_nat jr] a.
Proof. exact (bytes_local_roundtrip P t ct lname hv hist name v comp nsub h nb k fr ws hfile file). Qed.
Print Assumptions C117_local_roundtrip.
(** Short integers: two processes write two components for three of four pixels. *)
Definition small : platform := mk_platform 2 4.
Example C117_local_case :
  let ws := [proc 2 0 [1] [1; 0; 2; 0]; proc 2 2 [0; 1] [3; 0; 4; 0; 5; 0; 6; 0]] in
  let r := proc 4 0 [1; 2; 3] (repeat 0 12) in
  (forall w, In w (r :: ws) -> whole 2 (pr_mem w) /\ local_process "px" row_var 3 None "s" (two_var 3) [2] 1 (as_elements 2 w) /\ StronglySorted Z.lt (pr_ids w)) /\
  (let! (hf, g) := bwrite_collection small NcShort 2 1 0 row_var (two_var 3) 0 ws (blank (-5)) (zeros 2) in
   bread_collection small NcShort 2 1 0 row_var (two_var 3) 0 r hf g) = Ok [1; 0; 2; 0; 3; 0; 4; 0; 5; 0; 6; 0].
Proof.
  cbv zeta. split; [|vm_compute; reflexivity].
  assert (PR : forall n loc ids mem mem', 0 < n -> 0 <= loc -> loc + n <= 4 -> StronglySorted Z.lt ids -> (forall i, In i ids -> 0 <= i < n) -> elements 2 mem = mem' -> length mem = (2 * length ids * 2)%nat ->
    local_process "px" row_var 3 None "s" (two_var 3) [2] 1 (mk_process (row n loc) ids (two (length ids)) mem')).
  { intros n loc ids mem mem' N L B S I <- LM.
    assert (Q : local_process "px" row_var 3 None "s" (two_var 3) [2] 1 (proc n loc ids (repeat 0 (2 * length ids)))).
    { apply proc_is_process; try assumption; [lia|now apply NetCDFProofs10.sorted_nodup|apply repeat_length]. }
    destruct Q as (Q1 & Q2 & Q3 & Q4 & Q5 & Q6). split; [exact Q1|]. split; [exact Q2|]. split; [exact Q3|]. split; [exact Q4|]. split; [|exact Q6].
    unfold local_field in *. cbn [proc pr_field pr_mem pr_ids] in *. rewrite (elements_length 2 mem (2 * length ids)) by (try lia; rewrite LM; reflexivity). now rewrite repeat_length in Q5. }
  intros w [<-|[<-|[<-|[]]]]; cbn [proc pr_ids pr_mem];
    (split; [split; [lia|]; (exists 6%nat; reflexivity) || (exists 2%nat; reflexivity) || (exists 4%nat; reflexivity)|]; split; [|repeat constructor];
     refine (PR _ _ _ _ _ _ _ _ _ _ eq_refl _); [lia|lia|lia|repeat constructor|intros i Hi; cbn in Hi; lia|reflexivity]).
Qed.

(** ** C118 *)

(** No field with complex elements can be registered, and a collection that
    contains one cannot be registered as a whole. *)
Theorem C118_complex_refuted P seen hidden hist name f x : snd (register_typed P seen hidden hist name CComplex f) <> Ok x.
Proof. exact (register_typed_complex P seen hidden hist name f x). Qed.
Print Assumptions C118_complex_refuted.
Theorem C118_collection_refuted P seen fs : (exists f, In (CComplex, f) fs) -> forall vs, register_fields P seen fs <> Ok vs.
Proof. exact (register_fields_complex P fs seen). Qed.
Print Assumptions C118_collection_refuted.
Example C118_complex_case :
  register_fields usual [0; 0; 0] [(CReal, pair_at 0); (CComplex, other)] = Err FileIOError /\
  exists vs, register_fields usual [0; 0; 0] [(CReal, pair_at 0); (CInt, other)] = Ok vs /\ map snd vs = [NcDouble; NcInt].
Proof. split; [vm_compute; reflexivity|]. eexists. split; vm_compute; reflexivity. Qed.
(** For the other types registration succeeds exactly if it does for the shape,
    with the same variable. *)
Theorem C118_real_partial P seen hidden hist name c f : c <> CComplex -> exists t, typeid_to_nc_type P c = Ok t /\
  forall v, snd (register_global seen hidden hist name f) = Ok v <-> snd (register_typed P seen hidden hist name c f) = Ok (v, t).
Proof.
  intros NC. assert (T : exists t, typeid_to_nc_type P c = Ok t) by (destruct c; try contradiction; eexists; reflexivity).
  destruct T as (t & T). exists t. split; [exact T|]. intros v. rewrite register_typed_ok. tauto.
Qed.
Print Assumptions C118_real_partial.
Example C118_case : snd (register_typed usual [0; 0; 0] false None "u" CIndex (pair_at 0)) = Ok (var_of None (pair_at 0), NcInt64).
Proof. vm_compute. reflexivity. Qed.

(** ** C119 *)

(** A file written with a variable of integers is read into a field of doubles
    without an error: the first double gets the bytes of both integers, the
    second keeps what it had. *)
Theorem C119_smaller_refuted :
  typeid_to_nc_type usual CReal = Ok NcDouble /\ in_bytes usual CReal (pair_at 0) (repeat 9 16) /\
  (let! file := bwrite_global 4 1 0 (var_of None (pair_at 0)) 0 (pair_at 0) (ints 1) (zeros 4) in
   read_existing [("u", NcInt)] [("u", NcDouble)] 1 0 (var_of None (pair_at 0)) 0 (pair_at 0) file (repeat 9 16)) =
  Ok (ints 1 ++ repeat 9 8).
Proof. split; [reflexivity|]. split; [apply pair_in_bytes; [discriminate|auto|reflexivity]|]. vm_compute. reflexivity. Qed.
Print Assumptions C119_smaller_refuted.
(** Integers of eight bytes and doubles are taken for each other. *)
Theorem C119_same_size_refuted : exists file,
  bwrite_global 8 1 0 (var_of None (pair_at 0)) 0 (pair_at 0) [1; 0; 0; 0; 0; 0; 0; 0; 2; 0; 0; 0; 0; 0; 0; 0] (zeros 8) = Ok file /\
  read_existing [("u", NcInt64)] [("u", NcDouble)] 1 0 (var_of None (pair_at 0)) 0 (pair_at 0) file (repeat 9 16) =
  Ok [1; 0; 0; 0; 0; 0; 0; 0; 2; 0; 0; 0; 0; 0; 0; 0].
Proof. eexists. split; [reflexivity|]. vm_compute. reflexivity. Qed.
Print Assumptions C119_same_size_refuted.
(** Appending doubles to a variable of integers stores the halves of the first
    double as two integers. *)
Theorem C119_append_refuted : exists file,
  write_existing [("u", NcInt)] [("u", NcDouble)] 1 0 (var_of None (pair_at 0)) 0 (pair_at 0) (count_up 1 16) (zeros 4) = Ok file /\
  cells file "u" [0; 0; 0; 0] = [1; 2; 3; 4] /\ cells file "u" [0; 0; 1; 0] = [5; 6; 7; 8].
Proof. eexists. split; [reflexivity|]. vm_compute. auto. Qed.
Print Assumptions C119_append_refuted.
(** A variable whose elements are larger than those of the field is read beyond
    the end of the memory, for all fields without padding. *)
Theorem C119_larger_refuted P c t t' in_file own hist name f v h nb k fr mem file :
  real_platform P -> typeid_to_nc_type P c = Ok t -> in_bytes P c f mem -> registered hist name f v -> entry hist h ->
  accessed k nb = Ok fr -> fr < recs file -> sane_dense (nf_lay f) -> 0 < l_nbuf (nf_lay f) ->
  Z.of_nat (length mem) = csize P c * buffer_scalars (nf_lay f) ->
  file_type in_file name = Ok t' -> typed (ext_size t') name file -> ext_size t < ext_size t' ->
  (exists ts, find_variables in_file own = Ok ts) ->
  read_existing in_file own nb k v h f file mem = UB.
Proof.
  intros RP TY [W D] RG EN AC FR SD NB LM FT TF LT (ts & FV). unfold read_existing. rewrite FV. cbn [bind]. rewrite (registered_name _ _ _ _ RG), FT. cbn [bind].
  destruct (type_sizes P c t RP TY) as (S & _). rewrite S in LT. now apply (overrun (csize P c) (ext_size t') hist name f v h nb k fr mem file).
Qed.
Print Assumptions C119_larger_refuted.
Example C119_larger_case : exists file,
  bwrite_global 8 1 0 (var_of None (pair_at 0)) 0 (pair_at 0) (count_up 1 16) (zeros 8) = Ok file /\ typed 8 "u" file /\ 0 < recs file /\
  sane_dense (nf_lay (pair_at 0)) /\ in_bytes usual CInt (pair_at 0) (ints 1) /\
  read_existing [("u", NcDouble)] [("u", NcInt)] 1 0 (var_of None (pair_at 0)) 0 (pair_at 0) file (ints 1) = UB.
Proof.
  destruct (bwrite_global 8 1 0 (var_of None (pair_at 0)) 0 (pair_at 0) (count_up 1 16) (zeros 8)) as [file| |] eqn:E; [|vm_compute in E; discriminate E..].
  exists file. split; [reflexivity|].
  assert (T : typed 8 "u" file).
  { apply (typed_write 8 8 1 0 (var_of None (pair_at 0)) 0 (pair_at 0) (count_up 1 16) "u" (zeros 8) file); auto; [split; [lia|exists 2%nat; reflexivity]|intros i; reflexivity]. }
  split; [exact T|]. assert (R : recs file = 1) by (apply (f_equal (fun r => match r with Ok f => recs f | _ => 0 end)) in E; vm_compute in E; now rewrite E).
  split; [lia|]. split; [|split; [apply pair_in_bytes; [discriminate|auto|reflexivity]|]].
  - destruct (global_order_dense ColMajor Automatic [2; 1] [] [1] 1 (grid ColMajor [2; 1] [1] 1)) as (SD & _); [vm_compute; reflexivity|repeat constructor ..|now left|exact SD].
  - apply (f_equal (fun r => let! file := r in read_existing [("u", NcDouble)] [("u", NcInt)] 1 0 (var_of None (pair_at 0)) 0 (pair_at 0) file (ints 1))) in E. cbn [bind] in E. rewrite <- E. vm_compute. reflexivity.
Qed.
(** If every variable has in the file the type it has in the object, fields are
    read and written as in C117. *)
Theorem C119_same_partial P c t in_file own nb k v h f file mem :
  NoDup (map fst in_file) -> (forall o, In o own -> In o in_file) -> (length own <= length in_file)%nat ->
  real_platform P -> typeid_to_nc_type P c = Ok t -> In (v_name v, t) own ->
  read_existing in_file own nb k v h f file mem = bread_global (csize P c) nb k v h f file mem /\
  write_existing in_file own nb k v h f mem file = bwrite_global (csize P c) nb k v h f mem file.
Proof.
  intros ND SU LE RP TY I. destruct (type_sizes P c t RP TY) as (S & _).
  assert (FT : forall n u, In (n, u) in_file -> file_type in_file n = Ok u).
  { clear -ND. induction in_file as [|[n0 u0] r IH]; intros n u I; [destruct I|]. cbn [map fst] in ND. apply NoDup_cons_iff in ND. destruct ND as [N1 N2]. cbn [file_type].
    destruct (String.eqb_spec n0 n) as [->|N].
    - destruct I as [I|I]; [now injection I as ->|]. exfalso. apply N1. apply in_map_iff. exists (n, u). auto.
    - destruct I as [I|I]; [injection I as -> _; contradiction|now apply IH]. }
  assert (FV : exists ts, find_variables in_file own = Ok ts).
  { unfold find_variables. replace (length in_file <? length own)%nat with false by (symmetry; now apply Nat.ltb_ge).
    clear -SU FT. induction own as [|[n u] r IH]; cbn [mapm]; [eauto|]. cbn [fst]. rewrite (FT n u) by (apply SU; now left). cbn [bind].
    destruct IH as (ts & ->); [intros o Io; apply SU; now right|]. cbn [bind]. eauto. }
  destruct FV as (ts & FV). unfold read_existing, write_existing. rewrite FV. cbn [bind]. rewrite (FT _ _ (SU _ I)). cbn [bind]. rewrite S. auto.
Qed.
Print Assumptions C119_same_partial.
Example C119_case :
  (let! file := write_existing [("u", NcInt); ("w", NcDouble)] [("u", NcInt)] 1 0 (var_of None (pair_at 0)) 0 (pair_at 0) (ints 5) (zeros 4) in
   read_existing [("u", NcInt); ("w", NcDouble)] [("u", NcInt)] 1 0 (var_of None (pair_at 0)) 0 (pair_at 0) file (repeat 0 8)) = Ok (ints 5).
Proof. vm_compute. reflexivity. Qed.
