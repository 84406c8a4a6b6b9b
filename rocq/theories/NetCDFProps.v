(** C37, C38, C39, C82-C85: fields in NetCDF files. *)
From Coq Require Import String Sorting.Sorted.
From Verif Require Import Base CIntModel GridModel GridSpec GridProofs StridedModel LayoutModel LayoutSpec LayoutProofs LayoutProofs2 CommModel FrameModel RegistryModel.
From Verif Require Import NetCDFModel NetCDFSpec NetCDFProofs6 NetCDFProofs7 NetCDFProofs8 NetCDFProofs9 NetCDFProofs10 NetCDFProofs11 NetCDFProofs12.
Local Open Scope Z_scope.
Local Open Scope list_scope.

(** ** Fields of the cases below *)
Definition the {A} (d : A) (r : res A) : A := match r with Ok x => x | _ => d end.
Definition no_var : ncvar := mk_ncvar "" [] None.
Definition blank {A} (d : A) : ncfile A := mk_ncfile 0 (fun _ _ => d).
Definition count_up (a n : nat) : list Z := map Z.of_nat (seq a n).
Definition grid (o : storder) (n comp : list Z) (nsub : Z) : layout :=
  the (local_layout 0 [] 1) (global_layout_order o Automatic n [] comp nsub).
(** A field on a part of a 4 x 2 grid, and its variable. *)
Definition part (o : storder) (n loc comp : list Z) (nsub : Z) : nfield :=
  mk_nfield "u" "quad" (grid o n comp nsub) [4; 2] loc.
Definition var_of (hist : option Z) (f : nfield) : ncvar :=
  the no_var (snd (register_global [0; 0; 0] false hist (nf_name f) f)).
(** A part of a row of four pixels, a local collection on it, and a field with
    two components on this collection. *)
Definition row (n loc : Z) : nfield := mk_nfield "px" "pixel" (grid ColMajor [n] [1] 1) [4] [loc].
Definition row_var : ncvar := the no_var (snd (register_global [0; 0; 0] true None "px" (row 4 0))).
Definition two (n : nat) : nfield := mk_nfield "s" "pixel" (local_layout (Z.of_nat n) [2] 1) [4] [0].
Definition two_var (total : Z) : ncvar := the no_var (register_local total None "s" (two 0) []).
Definition proc (n loc : Z) (ids mem : list Z) : process Z := mk_process (row n loc) ids (two (length ids)) mem.
(** Write by all processes, then read by another one. *)
Definition write_then_read (total : Z) (ws : list (process Z)) (r : process Z) : res (list Z) :=
  let! (hf, file) := write_collection 1 0 row_var (two_var total) 0 ws (blank (-5)) (blank (-7)) in
  read_collection 1 0 row_var (two_var total) 0 r hf file.

(** ** C37 *)

(** The kind recovered from each dimension name of a registered field is the
    kind it was built for: frame, history, component axes, sub-point, grid axes. *)
Theorem C37_kinds_global hist name f v : registered hist name f v ->
  map (fun d => compute_base_name (d_name d)) (v_dims v) =
  kinds_of false hist (nf_lay f) (firstn (length (nf_dom f)) ["nx"; "ny"; "nz"]%string).
Proof. exact (kinds_global hist name f v). Qed.
Print Assumptions C37_kinds_global.
Theorem C37_kinds_local total hist name f pixels v : register_local total hist name f pixels = Ok v ->
  map (fun d => compute_base_name (d_name d)) (v_dims v) =
  kinds_of false hist (nf_lay f) (if total =? 0 then [] else ["pts"%string]).
Proof. exact (kinds_local total hist name f pixels v). Qed.
Print Assumptions C37_kinds_local.

(** The number recovered from the name of the j-th component axis is j. *)
Theorem C37_component_axis hist name f v j : registered hist name f v -> (j < length (l_comp (nf_lay f)))%nat ->
  exists d, nth_error (v_dims v) ((match hist with None => 1 | Some _ => 2 end) + j) = Some d /\
    d_size d = zn (l_comp (nf_lay f)) j /\ compute_tensor_dim_index (d_name d) = Ok (Z.of_nat j).
Proof. exact (axis_number hist name f v j). Qed.
Print Assumptions C37_component_axis.
Theorem C37_component_axis_local total hist name f pixels v j :
  register_local total hist name f pixels = Ok v -> (j < length (l_comp (nf_lay f)))%nat -> Z.of_nat j < 2 ^ 31 ->
  exists d, nth_error (v_dims v) ((match hist with None => 1 | Some _ => 2 end) + j) = Some d /\
    d_size d = zn (l_comp (nf_lay f)) j /\ compute_tensor_dim_index (d_name d) = Ok (Z.of_nat j).
Proof. exact (axis_number_local total hist name f pixels v j). Qed.
Print Assumptions C37_component_axis_local.

(** Dimensions of variables with different names share a name only if they have
    the same length. *)
Theorem C37_no_clash hist name f v d hist' name' f' v' d' :
  stored hist name f v -> stored hist' name' f' v' -> name <> name' -> nf_dom f = nf_dom f' ->
  0 <= l_nsub (nf_lay f) -> 0 <= l_nsub (nf_lay f') ->
  (forall n, hist = Some n -> 0 <= n) -> (forall n, hist' = Some n -> 0 <= n) ->
  In d (v_dims v) -> In d' (v_dims v') -> d_name d = d_name d' -> d_size d = d_size d'.
Proof.
  intros S S' N ED H1 H2 H3 H4 I I' E.
  assert (X : exists dom total, (dom = [] \/ dom = nf_dom f) /\ dim_of hist name f dom total d).
  { destruct S as [S|(t & px & S)]; [exists (nf_dom f), 0|exists [], t]; split; auto; [now apply (dims_from_global _ _ _ v)|now apply (dims_from_local _ _ _ _ px v)]. }
  assert (X' : exists dom total, (dom = [] \/ dom = nf_dom f') /\ dim_of hist' name' f' dom total d').
  { destruct S' as [S'|(t & px & S')]; [exists (nf_dom f'), 0|exists [], t]; split; auto; [now apply (dims_from_global _ _ _ v')|now apply (dims_from_local _ _ _ _ px v')]. }
  destruct X as (dom & t & D & X), X' as (dom' & t' & D' & X'). f_equal.
  apply (no_clash hist name f dom t d hist' name' f' t' dom' d'); try assumption.
  destruct D as [-> | ->], D' as [-> | ->]; auto.
Qed.
Print Assumptions C37_no_clash.

(** A name with a dash and a number at its end, and single underscores. *)
Example C37_case : exists v, registered (Some 3) "a_b-1" (part RowMajor [2; 2] [0; 0] [2; 3] 2) v /\
  map d_name (v_dims v) =
    ["frame"; "history_index__3"; "tensor_dim__a_b-1-0"; "tensor_dim__a_b-1-1"; "subpt__quad-2"; "nx"; "ny"]%string /\
  map (fun d => compute_base_name (d_name d)) (v_dims v) =
    ["frame"; "history_index"; "tensor_dim"; "tensor_dim"; "subpt"; "nx"; "ny"]%string /\
  map (fun d => compute_tensor_dim_index (d_name d)) (v_dims v) = [Ok (-1); Ok (-1); Ok 0; Ok 1; Ok (-1); Ok (-1); Ok (-1)].
Proof.
  eexists. split; [exists [0; 0; 0]; eexists; vm_compute; reflexivity|]. split; [vm_compute; reflexivity|].
  split; vm_compute; reflexivity.
Qed.
Example C37_local_case : exists v, register_local 5 None "s" (two 3) [0; -1; 1; 2] = Ok v /\
  map (fun d => compute_base_name (d_name d)) (v_dims v) = ["frame"; "tensor_dim"; "subpt"; "pts"]%string /\
  map d_size (v_dims v) = [0; 2; 1; 5].
Proof. eexists. split; [vm_compute; reflexivity|]. split; vm_compute; reflexivity. Qed.

(** ** C82 *)

(** Not every field can be registered: a name that begins with an underscore or
    contains two in a row makes the kind of the component axes unknown, ... *)
Theorem C82_name_refuted : exists f (mem : list Z), distributed f mem /\
  snd (register_global [0; 0; 0] false None "a__b" f) = Err FileIOError /\
  snd (register_global [0; 0; 0] false None "_b" f) = Err FileIOError.
Proof.
  exists (part ColMajor [4; 2] [0; 0] [2] 1), (count_up 0 16). split; [|split; vm_compute; reflexivity].
  destruct (global_order_dense ColMajor Automatic [4; 2] [] [2] 1 (grid ColMajor [4; 2] [2] 1)) as ((Sn & _) & _);
    [vm_compute; reflexivity|repeat constructor ..|now left|].
  split; [exact Sn|]. split; [reflexivity|]. split; [reflexivity|]. split; [reflexivity|]. split.
  - intros [|[|i]] Hi; vm_compute; (repeat split; discriminate) || (cbn in Hi; lia).
  - vm_compute. discriminate.
Qed.
Print Assumptions C82_name_refuted.
(** ... a scalar field on several sub-points is refused, ... *)
Theorem C82_scalar_refuted : exists f (mem : list Z), distributed f mem /\
  snd (register_global [0; 0; 0] false None "u" f) = Err FileIOError.
Proof.
  exists (part ColMajor [4; 2] [0; 0] [1] 2), (count_up 0 16). split; [|vm_compute; reflexivity].
  destruct (global_order_dense ColMajor Automatic [4; 2] [] [1] 2 (grid ColMajor [4; 2] [1] 2)) as ((Sn & _) & _);
    [vm_compute; reflexivity|repeat constructor ..|now left|].
  split; [exact Sn|]. split; [reflexivity|]. split; [reflexivity|]. split; [reflexivity|]. split.
  - intros [|[|i]] Hi; vm_compute; (repeat split; discriminate) || (cbn in Hi; lia).
  - vm_compute. discriminate.
Qed.
Print Assumptions C82_scalar_refuted.
(** ... and a local collection without any pixel. *)
Theorem C82_no_pixel_refuted name hist f pixels : sane (nf_lay f) -> length (l_pix (nf_lay f)) = 1%nat -> l_nbc (nf_lay f) <> 1 ->
  forall v, register_local 0 hist name f pixels <> Ok v.
Proof. intros S L N v E. destruct (refused_local _ _ _ _ _ _ E S L) as [[H _]|(_ & H & _)]; contradiction. Qed.
Print Assumptions C82_no_pixel_refuted.
Example C82_no_pixel_case : register_local 0 None "s" (two 0) [] = Err FileIOError.
Proof. vm_compute. reflexivity. Qed.

(** Exactly the following fields can be registered. *)
Theorem C82_global_partial hist name f : sane (nf_lay f) ->
  length (nf_loc f) = length (nf_dom f) -> length (l_pix (nf_lay f)) = length (nf_dom f) ->
  (length (nf_dom f) <= 3)%nat -> Z.of_nat (length (l_comp (nf_lay f))) <= 2 ^ 31 ->
  (exists s v, register_global [0; 0; 0] false hist name f = (s, Ok v)) <->
  (l_nbc (nf_lay f) = 1 -> l_nsub (nf_lay f) = 1) /\
  (l_comp (nf_lay f) <> [] -> plain_name name) /\
  (single (nf_lay f) = false -> plain_name (nf_tag f)).
Proof. exact (accepted_iff hist name f). Qed.
Print Assumptions C82_global_partial.
Theorem C82_local_partial {A} total hist name f pixels n : (exists m : list A, local_field f n m) -> 0 < total ->
  Z.of_nat (length (l_comp (nf_lay f))) <= 2 ^ 31 ->
  (exists v, register_local total hist name f pixels = Ok v) <->
  (l_nbc (nf_lay f) = 1 -> l_nsub (nf_lay f) = 1) /\ plain_name name /\
  (single (nf_lay f) = false -> plain_name (nf_tag f)).
Proof. exact (accepted_local_iff total hist name f pixels n). Qed.
Print Assumptions C82_local_partial.
(** Names as users give them are plain. *)
Example C82_plain_case : plain_name "grad_u-old" /\ plain_name "u_" /\ ~ plain_name "_u" /\ ~ plain_name "grad__u".
Proof.
  split; [apply plain_clean; vm_compute; reflexivity|]. split; [apply plain_clean; vm_compute; reflexivity|].
  split; intros P; apply plain_clean in P; vm_compute in P; discriminate.
Qed.

(** ** C38 *)

(** The processes [writers] write a frame of a field, each its part of the
    domain, in its storage order and memory layout.  Whatever is written later
    to other frames, variables or entries of the history: the file holds every
    value at the place of its index, and any process reads, for the pixels it
    owns, the values the writers had. *)
Theorem C38_roundtrip {A} hist name v vr (writers : list (nfield * list A)) reader mem nb k fr h file :
  writers <> [] ->
  (forall f m, In (f, m) writers -> distributed f m /\ registered hist name f v /\ same_array f reader) ->
  decomposition writers -> distributed reader mem -> registered hist name reader vr -> entry hist h -> accessed k nb = Ok fr ->
  exists file1, write_ranks nb k v h writers file = Ok file1 /\
    forall file2 nb' k', later v fr h file1 file2 -> accessed k' nb' = Ok fr ->
    (forall f m c q x, In (f, m) writers -> in_shape (l_comp (nf_lay f)) c -> 0 <= q < l_nsub (nf_lay f) -> owns f x ->
       holds (nf_lay f) m c q (shift (nf_loc f) x) (cells file2 name (cell false hist (nf_lay f) fr h c q x))) /\
    exists mem', read_global nb' k' vr h reader file2 mem = Ok mem' /\ length mem' = length mem /\
    forall f m c q x, In (f, m) writers -> in_shape (l_comp (nf_lay f)) c -> 0 <= q < l_nsub (nf_lay f) -> owns f x -> owns reader x ->
      exists a, holds (nf_lay f) m c q (shift (nf_loc f) x) a /\ holds (nf_lay reader) mem' c q (shift (nf_loc reader) x) a.
Proof. exact (roundtrip hist name v vr writers reader mem nb k fr h file). Qed.
Print Assumptions C38_roundtrip.

(** The same for state fields, all entries of the history. *)
Theorem C38_state_roundtrip {A} n name v vr (writers : list (nfield * list (list A))) reader mems nb k fr file :
  writers <> [] ->
  (forall f ms, In (f, ms) writers -> registered (Some n) name f v /\ same_array f reader /\
     forall h, 0 <= h < n -> distributed f (nth (Z.to_nat h) ms [])) ->
  decomposition writers -> Z.of_nat (length mems) = n -> (forall m, In m mems -> distributed reader m) ->
  registered (Some n) name reader vr -> accessed k nb = Ok fr ->
  exists file1, write_state nb k v 0 (Z.to_nat n) writers file = Ok file1 /\
    forall file2 nb' k', (forall h, 0 <= h < n -> later v fr h file1 file2) -> accessed k' nb' = Ok fr ->
    exists mems', read_state nb' k' vr 0 reader file2 mems = Ok mems' /\ length mems' = length mems /\
    forall f ms h c q x, In (f, ms) writers -> 0 <= h < n ->
      in_shape (l_comp (nf_lay f)) c -> 0 <= q < l_nsub (nf_lay f) -> owns f x -> owns reader x ->
      exists a, holds (nf_lay f) (nth (Z.to_nat h) ms []) c q (shift (nf_loc f) x) a /\
                holds (nf_lay reader) (nth (Z.to_nat h) mems' []) c q (shift (nf_loc reader) x) a.
Proof. exact (state_roundtrip n name v vr writers reader mems nb k fr file). Qed.
Print Assumptions C38_state_roundtrip.

(** Two processes with different storage orders write the left and the right
    half of a 4 x 2 grid; another one reads the upper row. *)
Definition left_half : nfield := part ColMajor [2; 2] [0; 0] [2] 2.
Definition right_half : nfield := part RowMajor [2; 2] [2; 0] [2] 2.
Definition upper_row : nfield := part RowMajor [4; 1] [0; 1] [2] 2.
Example C38_case :
  let writers := [(left_half, count_up 0 16); (right_half, count_up 100 16)] in
  (forall f m, In (f, m) writers -> distributed f m /\ registered None "u" f (var_of None f) /\ same_array f upper_row /\
     var_of None f = var_of None upper_row) /\
  decomposition writers /\ distributed upper_row (repeat 0 16) /\ registered None "u" upper_row (var_of None upper_row) /\
  (let! file := write_ranks 2 (-1) (var_of None upper_row) 0 writers (blank (-7)) in
   read_global 2 1 (var_of None upper_row) 0 upper_row file (repeat 0 16)) =
  Ok [8; 12; 101; 103; 10; 14; 105; 107; 9; 13; 109; 111; 11; 15; 113; 115].
Proof.
  assert (D : forall o n loc (m : list Z), o = ColMajor \/ o = RowMajor -> (o, n, loc) = (ColMajor, [2; 2], [0; 0]) \/ (o, n, loc) = (RowMajor, [2; 2], [2; 0]) \/ (o, n, loc) = (RowMajor, [4; 1], [0; 1]) ->
    length m = 16%nat -> distributed (part o n loc [2] 2) m).
  { intros o n loc m O C L.
    assert (Sn : sane (grid o n [2] 2)).
    { destruct C as [C|[C|C]]; injection C as -> -> ->.
      - apply (global_order_dense ColMajor Automatic [2; 2] [] [2] 2); [vm_compute; reflexivity|repeat constructor ..|now left].
      - apply (global_order_dense RowMajor Automatic [2; 2] [] [2] 2); [vm_compute; reflexivity|repeat constructor ..|now right].
      - apply (global_order_dense RowMajor Automatic [4; 1] [] [2] 2); [vm_compute; reflexivity|repeat constructor ..|now right]. }
    split; [exact Sn|]. destruct C as [C|[C|C]]; injection C as -> -> ->;
    (split; [reflexivity|]; split; [reflexivity|]; split; [reflexivity|]; split;
     [intros [|[|i]] Hi; vm_compute; (repeat split; discriminate) || (cbn in Hi; lia)|rewrite L; vm_compute; discriminate]). }
  assert (RG : forall f, f = left_half \/ f = right_half \/ f = upper_row -> registered None "u" f (var_of None f) /\ same_array f upper_row /\ var_of None f = var_of None upper_row).
  { intros f [-> | [-> | ->]]; (split; [exists [0; 0; 0]; eexists; vm_compute; reflexivity|]; split; [repeat split|vm_compute; reflexivity]). }
  cbv zeta. split; [|split; [|split; [|split]]].
  - intros f m [E|[E|[]]]; injection E as <- <-; (split; [apply D; auto|apply RG; auto]).
  - constructor; [|constructor; [constructor|constructor]]. constructor; [|constructor].
    intros x [L H] [_ H']. specialize (H 0%nat). specialize (H' 0%nat). vm_compute in L. cbn [fst] in *.
    change (length _) with 2%nat in H, H'. specialize (H ltac:(lia)). specialize (H' ltac:(lia)). cbn in H, H'. lia.
  - apply D; auto.
  - apply RG. auto.
  - vm_compute. reflexivity.
Qed.
Example C38_state_case :
  (let! file := write_state 1 0 (var_of (Some 2) upper_row) 0 2
       [(left_half, [count_up 0 16; count_up 20 16]); (right_half, [count_up 100 16; count_up 120 16])] (blank (-7)) in
   read_state 1 0 (var_of (Some 2) upper_row) 0 upper_row file [repeat 0 16; repeat 0 16]) =
  Ok [[8; 12; 101; 103; 10; 14; 105; 107; 9; 13; 109; 111; 11; 15; 113; 115];
      [28; 32; 121; 123; 30; 34; 125; 127; 29; 33; 129; 131; 31; 35; 133; 135]].
Proof. vm_compute. reflexivity. Qed.

(** ** C39 *)

(** The processes [ws] write a field of their local collections, whose pixels
    are in increasing order.  A process whose collection holds, of the pixels
    it owns, the pixels that were in the writers' collections, in increasing
    order too, reads for every pixel what was written for it.  [keeps]: what
    was written for this frame is still there. *)
Theorem C39_roundtrip {A} lname hv hist name v comp nsub h nb k fr (ws : list (process A)) hfile file :
  Z.of_nat (length comp) <= 2 ^ 31 -> entry hist h -> accessed k nb = Ok fr -> 0 < zsum (counts_of ws) ->
  (forall w, In w ws -> local_process lname hv (zsum (counts_of ws)) hist name v comp nsub w) -> tiles ws ->
  (forall w, In w ws -> StronglySorted Z.lt (pr_ids w)) ->
  exists hf g, write_collection nb k hv v h ws hfile file = Ok (hf, g) /\
    forall r nb' k' hf2 g2, local_process lname hv (zsum (counts_of ws)) hist name v comp nsub r -> StronglySorted Z.lt (pr_ids r) ->
      (forall x, owns (pr_sub r) x -> exists w, In w ws /\ owns (pr_sub w) x) ->
      (forall x w, In w ws -> owns (pr_sub r) x -> owns (pr_sub w) x ->
         (In (pixel_id (pr_sub w) x) (pr_ids w) <-> In (pixel_id (pr_sub r) x) (pr_ids r))) ->
      accessed k' nb' = Ok fr -> (forall a, cells hf2 lname a = cells hf lname a) -> keeps name hist fr h g g2 ->
      exists mem', read_collection nb' k' hv v h r hf2 g2 = Ok mem' /\ length mem' = length (pr_mem r) /\
        forall w x jw jr c q, In w ws -> pixel_at w jw x -> pixel_at r jr x -> in_shape comp c -> 0 <= q < nsub ->
          exists a, holds (nf_lay (pr_field w)) (pr_mem w) c q [Z.of_nat jw] a /\
                    holds (nf_lay (pr_field r)) mem' c q [Z.of_nat jr] a.
Proof. intros H1 H2 H3. exact (local_roundtrip lname hv hist name v comp nsub h nb k fr H1 H2 H3 ws hfile file). Qed.
Print Assumptions C39_roundtrip.

(** If the reader has the sub-domain and the pixels of one of the writers, the
    order of the pixels is arbitrary. *)
Theorem C39_same_process {A} lname hv hist name v comp nsub h nb k fr (ws : list (process A)) hfile file :
  Z.of_nat (length comp) <= 2 ^ 31 -> entry hist h -> accessed k nb = Ok fr -> 0 < zsum (counts_of ws) ->
  (forall w, In w ws -> local_process lname hv (zsum (counts_of ws)) hist name v comp nsub w) -> tiles ws ->
  exists hf g, write_collection nb k hv v h ws hfile file = Ok (hf, g) /\
    forall w r nb' k' hf2 g2, In w ws -> local_process lname hv (zsum (counts_of ws)) hist name v comp nsub r ->
      pr_sub r = pr_sub w -> pr_ids r = pr_ids w ->
      accessed k' nb' = Ok fr -> (forall a, cells hf2 lname a = cells hf lname a) -> keeps name hist fr h g g2 ->
      exists mem', read_collection nb' k' hv v h r hf2 g2 = Ok mem' /\ length mem' = length (pr_mem r) /\
        forall j c q, (j < length (pr_ids w))%nat -> in_shape comp c -> 0 <= q < nsub ->
          exists a, holds (nf_lay (pr_field w)) (pr_mem w) c q [Z.of_nat j] a /\
                    holds (nf_lay (pr_field r)) mem' c q [Z.of_nat j] a.
Proof. intros H1 H2 H3. exact (local_roundtrip_same lname hv hist name v comp nsub h nb k fr H1 H2 H3 ws hfile file). Qed.
Print Assumptions C39_same_process.

(** The processes of the cases are those of the theorems. *)
Lemma row_pixels n loc : 0 < n -> 0 <= loc -> loc + n <= 4 -> pixel_field (row n loc) /\ registered_pixels "px" (row n loc) row_var /\
  forall i, 0 <= i < n -> owns (row n loc) [loc + i] /\ pixel_id (row n loc) [loc + i] = i.
Proof.
  intros N L B. assert (C : n = 1 \/ n = 2 \/ n = 3 \/ n = 4) by lia.
  assert (X : sane_dense (grid ColMajor [n] [1] 1) /\ l_nbuf (grid ColMajor [n] [1] 1) = n /\ l_npix (grid ColMajor [n] [1] 1) = n /\ l_pix (grid ColMajor [n] [1] 1) = [n] /\ l_comp (grid ColMajor [n] [1] 1) = [1] /\ l_nsub (grid ColMajor [n] [1] 1) = 1 /\ l_nbc (grid ColMajor [n] [1] 1) = 1 /\ l_pstr (grid ColMajor [n] [1] 1) = [1]).
  { split; [|destruct C as [->|[->|[->| ->]]]; vm_compute; auto 10].
    apply (global_order_dense ColMajor Automatic [n] [] [1] 1); [destruct C as [->|[->|[->| ->]]]; vm_compute; reflexivity|repeat constructor; lia|repeat constructor|vm_compute; reflexivity|lia|now left]. }
  destruct X as (SD & X1 & X2 & X3 & X4 & X5 & X6 & X7).
  split; [|split].
  - unfold pixel_field. cbn [row nf_lay]. rewrite X1, X2, X4, X5. split; [reflexivity|]. split; [reflexivity|]. split; [reflexivity|]. split; [exact SD|].
    unfold distributed, buffer_scalars. cbn [row nf_lay nf_dom nf_loc]. rewrite X1, X2, X3, X5, X6, repeat_length. destruct SD as [Sn _].
    split; [exact Sn|]. split; [unfold zprod; cbn; lia|]. split; [reflexivity|]. split; [reflexivity|]. split; [|lia].
    intros [|i] Hi; [|cbn in Hi; lia]. unfold zn; cbn [nth]. lia.
  - exists [0; 0; 0], [4; 0; 0]. destruct C as [->|[->|[->| ->]]]; vm_compute; reflexivity.
  - intros i Hi. unfold owns, in_box, pixel_id. cbn [row nf_lay nf_loc]. rewrite X3, X7. split; [|unfold off, shift; cbn -[Z.add Z.sub Z.mul]; lia]. split; [reflexivity|].
    intros [|j] Hj; [|cbn in Hj; lia]. cbn. lia.
Qed.
Lemma proc_is_process n loc ids mem total : 0 < n -> 0 <= loc -> loc + n <= 4 -> 0 < total -> NoDup ids -> (forall i, In i ids -> 0 <= i < n) ->
  length mem = (2 * length ids)%nat -> local_process "px" row_var total None "s" (two_var total) [2] 1 (proc n loc ids mem).
Proof.
  intros N L B T ND I LM. destruct (row_pixels n loc N L B) as (P1 & P2 & P3).
  assert (LF : local_field (two (length ids)) (Z.of_nat (length ids)) mem).
  { split; [reflexivity|]. split; [lia|]. split; [repeat constructor|]. split; [reflexivity|]. split; [reflexivity|]. cbn [two nf_lay local_layout layout_of_shape l_comp l_nsub]. change (zprod [2]) with 2. lia. }
  split; [exact P1|]. split; [exact P2|]. split; [exact ND|]. split; [intros i Hi; exists [loc + i]; destruct (P3 i (I i Hi)); now split|].
  split; [exact LF|]. split; [|split; reflexivity]. exists [].
  destruct (@accepted_local Z total None "s" (two 0) [] 0) as [v E]; [|exact T|vm_compute; discriminate|intros X; discriminate X|apply plain_clean; reflexivity|intros _; apply plain_clean; reflexivity|].
  - exists []. split; [reflexivity|]. split; [lia|]. split; [repeat constructor|]. split; [reflexivity|]. split; [reflexivity|]. cbn. lia.
  - unfold two_var. rewrite E. cbn [the]. rewrite <- E. reflexivity.
Qed.
Example C39_case :
  let ws := [proc 2 0 [0; 1] [1; 2; 3; 4]; proc 2 2 [1] [5; 6]] in
  let r := proc 4 0 [0; 1; 3] [0; 0; 0; 0; 0; 0] in
  (forall w, In w (r :: ws) -> local_process "px" row_var 3 None "s" (two_var 3) [2] 1 w /\ StronglySorted Z.lt (pr_ids w)) /\
  tiles ws /\ (forall x, owns (pr_sub r) x -> exists w, In w ws /\ owns (pr_sub w) x) /\
  write_then_read 3 ws r = Ok [1; 2; 3; 4; 5; 6].
Proof.
  cbv zeta. split; [|split; [|split]].
  - assert (PR : forall n loc ids mem, 0 < n -> 0 <= loc -> loc + n <= 4 -> StronglySorted Z.lt ids -> (forall i, In i ids -> 0 <= i < n) -> length mem = (2 * length ids)%nat ->
      local_process "px" row_var 3 None "s" (two_var 3) [2] 1 (proc n loc ids mem) /\ StronglySorted Z.lt ids).
    { intros n loc ids mem N L B S I LM. split; [|exact S]. apply proc_is_process; try assumption; [lia|now apply sorted_nodup]. }
    intros w [<-|[<-|[<-|[]]]]; cbn [proc pr_ids];
      (apply PR; [lia|lia|lia|repeat constructor|intros i Hi; cbn in Hi; lia|reflexivity]).
  - split.
    + constructor; [|constructor; [constructor|constructor]]. constructor; [|constructor].
      intros x [L H] [_ H']. destruct x as [|x0 x]; [discriminate L|].
      specialize (H 0%nat ltac:(cbn; lia)). specialize (H' 0%nat ltac:(cbn; lia)). cbn in H, H'. lia.
    + intros a b [<-|[<-|[]]] [<-|[<-|[]]]; repeat split.
  - intros x [L H]. destruct x as [|x0 [|x1 x]]; [discriminate L| |discriminate L]. specialize (H 0%nat ltac:(cbn; lia)). cbn in H.
    destruct (Z.lt_ge_cases x0 2) as [Q|Q].
    + eexists. split; [left; reflexivity|]. split; [reflexivity|]. intros [|j] Hj; [cbn; lia|cbn in Hj; lia].
    + eexists. split; [right; left; reflexivity|]. split; [reflexivity|]. intros [|j] Hj; [cbn; lia|cbn in Hj; lia].
  - vm_compute. reflexivity.
Qed.
Example C39_same_process_case :
  write_then_read 3 [proc 2 0 [1; 0] [1; 2; 3; 4]; proc 2 2 [1] [5; 6]] (proc 2 0 [1; 0] [0; 0; 0; 0]) = Ok [1; 2; 3; 4].
Proof. vm_compute. reflexivity. Qed.

(** ** C83 *)

(** A collection whose pixels are not in increasing order is not read back pixel
    by pixel: here the writer has pixel 1 with the value (1, 2) and pixel 0 with
    (3, 4); the reader gets (1, 2) for pixel 0, its first one. *)
Theorem C83_order_refuted : exists w r mem', local_process "px" row_var 2 None "s" (two_var 2) [2] 1 w /\
  local_process "px" row_var 2 None "s" (two_var 2) [2] 1 r /\
  pr_sub r = pr_sub w /\ (forall i, In i (pr_ids r) <-> In i (pr_ids w)) /\
  write_then_read 2 [w] r = Ok mem' /\
  pixel_at w 1 [0] /\ pixel_at r 0 [0] /\
  holds (nf_lay (pr_field w)) (pr_mem w) [0] 0 [1] 3 /\ holds (nf_lay (pr_field r)) mem' [0] 0 [0] 1.
Proof.
  exists (proc 4 0 [1; 0] [1; 2; 3; 4]), (proc 4 0 [0; 1] [0; 0; 0; 0]), [1; 2; 3; 4].
  assert (O : owns (row 4 0) [0]) by (apply (row_pixels 4 0 ltac:(lia) ltac:(lia) ltac:(lia)) with (i := 0); lia).
  split; [apply proc_is_process; [lia|lia|lia|lia|repeat constructor; cbn; lia|intros i Hi; cbn in Hi; lia|reflexivity]|].
  split; [apply proc_is_process; [lia|lia|lia|lia|repeat constructor; cbn; lia|intros i Hi; cbn in Hi; lia|reflexivity]|].
  split; [reflexivity|]. split; [intros i; cbn; tauto|]. split; [vm_compute; reflexivity|].
  split; [split; [exact O|vm_compute; reflexivity]|]. split; [split; [exact O|vm_compute; reflexivity]|].
  split; (eexists; split; [vm_compute; reflexivity|vm_compute; reflexivity]).
Qed.
Print Assumptions C83_order_refuted.
(** Nor is it if the reader has the pixels in the order of the writer and a
    smaller sub-domain: pixel 1 was written with the value 3 and is read as 1. *)
Theorem C83_decomposition_refuted :
  let w := proc 4 0 [3; 2; 1; 0] [1; 1; 2; 2; 3; 3; 4; 4] in let r := proc 2 0 [1; 0] [0; 0; 0; 0] in
  local_process "px" row_var 4 None "s" (two_var 4) [2] 1 w /\ local_process "px" row_var 4 None "s" (two_var 4) [2] 1 r /\
  pixel_at w 2 [1] /\ pixel_at r 0 [1] /\ write_then_read 4 [w] r = Ok [1; 1; 2; 2] /\
  holds (nf_lay (pr_field w)) (pr_mem w) [0] 0 [2] 3.
Proof.
  cbv zeta.
  split; [apply proc_is_process; [lia|lia|lia|lia|repeat constructor; cbn; lia|intros i Hi; cbn in Hi; lia|reflexivity]|].
  split; [apply proc_is_process; [lia|lia|lia|lia|repeat constructor; cbn; lia|intros i Hi; cbn in Hi; lia|reflexivity]|].
  split; [split; [apply (row_pixels 4 0 ltac:(lia) ltac:(lia) ltac:(lia)) with (i := 1); lia|vm_compute; reflexivity]|].
  split; [split; [apply (row_pixels 2 0 ltac:(lia) ltac:(lia) ltac:(lia)) with (i := 1); lia|vm_compute; reflexivity]|].
  split; [vm_compute; reflexivity|]. eexists. split; vm_compute; reflexivity.
Qed.
Print Assumptions C83_decomposition_refuted.

(** ** C84 *)

(** A reader whose collection has fewer pixels than were written on its
    sub-domain writes beyond the memory of its field, ... *)
Theorem C84_fewer_pixels_refuted :
  let w := proc 4 0 [0; 1] [1; 2; 3; 4] in let r := proc 4 0 [0] [0; 0] in
  local_process "px" row_var 2 None "s" (two_var 2) [2] 1 w /\ local_process "px" row_var 1 None "s" (two_var 1) [2] 1 r /\
  map d_name (v_dims (two_var 1)) = map d_name (v_dims (two_var 2)) /\
  write_then_read 2 [w] r = UB.
Proof.
  cbv zeta.
  split; [apply proc_is_process; [lia|lia|lia|lia|repeat constructor; cbn; lia|intros i Hi; cbn in Hi; lia|reflexivity]|].
  split; [apply proc_is_process; [lia|lia|lia|lia|repeat constructor; cbn; lia|intros i Hi; cbn in Hi; lia|reflexivity]|].
  split; vm_compute; reflexivity.
Qed.
Print Assumptions C84_fewer_pixels_refuted.
(** ... and one whose collection has more gets values of other pixels: pixel 2
    was written as (3, 4), which is read for pixel 1. *)
Theorem C84_more_pixels_refuted :
  let w := proc 4 0 [0; 2] [1; 2; 3; 4] in let r := proc 4 0 [0; 1; 2] [0; 0; 0; 0; 0; 0] in
  local_process "px" row_var 2 None "s" (two_var 2) [2] 1 w /\ local_process "px" row_var 3 None "s" (two_var 3) [2] 1 r /\
  map d_name (v_dims (two_var 3)) = map d_name (v_dims (two_var 2)) /\
  write_then_read 2 [w] r = Ok [1; 2; 3; 4; 0; 0].
Proof.
  cbv zeta.
  split; [apply proc_is_process; [lia|lia|lia|lia|repeat constructor; cbn; lia|intros i Hi; cbn in Hi; lia|reflexivity]|].
  split; [apply proc_is_process; [lia|lia|lia|lia|repeat constructor; cbn; lia|intros i Hi; cbn in Hi; lia|reflexivity]|].
  split; vm_compute; reflexivity.
Qed.
Print Assumptions C84_more_pixels_refuted.

(** ** C85 *)

(** The lengths of dimensions in the file are not compared with those of the
    field: a field with two components reads the first two of three, and a
    field on a 3 x 2 grid a part of a 4 x 2 grid. *)
Definition vector (n loc comp : list Z) (dom : list Z) : nfield := mk_nfield "u" "pixel" (grid ColMajor n comp 1) dom loc.
Theorem C85_shape_refuted :
  let f3 := vector [2; 1] [0; 0] [3] [2; 1] in let f2 := vector [2; 1] [0; 0] [2] [2; 1] in
  registered None "u" f3 (var_of None f3) /\ registered None "u" f2 (var_of None f2) /\
  (let! file := write_ranks 1 0 (var_of None f3) 0 [(f3, [1; 2; 3; 4; 5; 6])] (blank (-7)) in
   read_found 1 0 (var_of None f3) (var_of None f2) 0 f2 file [0; 0; 0; 0]) = Ok [1; 2; 4; 5].
Proof.
  cbv zeta. split; [exists [0; 0; 0]; eexists; vm_compute; reflexivity|].
  split; [exists [0; 0; 0]; eexists; vm_compute; reflexivity|]. vm_compute. reflexivity.
Qed.
Print Assumptions C85_shape_refuted.
Theorem C85_domain_refuted :
  let f4 := vector [4; 1] [0; 0] [2] [4; 1] in let f3 := vector [3; 1] [0; 0] [2] [3; 1] in
  registered None "u" f4 (var_of None f4) /\ registered None "u" f3 (var_of None f3) /\
  (let! file := write_ranks 1 0 (var_of None f4) 0 [(f4, count_up 1 8)] (blank (-7)) in
   read_found 1 0 (var_of None f4) (var_of None f3) 0 f3 file [0; 0; 0; 0; 0; 0]) = Ok [1; 2; 3; 4; 5; 6].
Proof.
  cbv zeta. split; [exists [0; 0; 0]; eexists; vm_compute; reflexivity|].
  split; [exists [0; 0; 0]; eexists; vm_compute; reflexivity|]. vm_compute. reflexivity.
Qed.
Print Assumptions C85_domain_refuted.
(** A field with one component axis reads a variable with two: the library looks
    at more numbers than there are. *)
Theorem C85_rank_refuted :
  let f3 := vector [2; 1] [0; 0] [2; 2] [2; 1] in let f2 := vector [2; 1] [0; 0] [2] [2; 1] in
  registered None "u" f3 (var_of None f3) /\ registered None "u" f2 (var_of None f2) /\
  (let! file := write_ranks 1 0 (var_of None f3) 0 [(f3, count_up 1 8)] (blank (-7)) in
   read_found 1 0 (var_of None f3) (var_of None f2) 0 f2 file [0; 0; 0; 0]) = UB.
Proof.
  cbv zeta. split; [exists [0; 0; 0]; eexists; vm_compute; reflexivity|].
  split; [exists [0; 0; 0]; eexists; vm_compute; reflexivity|]. vm_compute. reflexivity.
Qed.
Print Assumptions C85_rank_refuted.

(** If the variable in the file is that of the field, reading is as in C38. *)
Theorem C85_same_partial {A} nb k v h f (file : ncfile A) mem : read_found nb k v v h f file mem = read_global nb k v h f file mem.
Proof.
  unfold read_found, find_dims. rewrite Nat.ltb_irrefl.
  replace (forallb _ _) with true; [reflexivity|]. symmetry. apply forallb_forall. intros d I. apply existsb_exists. exists d. split; [exact I|apply String.eqb_refl].
Qed.
Print Assumptions C85_same_partial.
