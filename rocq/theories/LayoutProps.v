(** C09-C12, C48-C50: layout of fields. *)
From Verif Require Import Base CIntModel GridModel GridSpec GridProofs3 LayoutModel LayoutSpec LayoutProofs LayoutProofs2.

(** ** C09 *)

(** Sub-point view: strides in range and without aliasing. *)
Theorem C09_sub_pt_view_embeds f : sane f ->
  exists s, get_strides f SubPt 1 = Ok s /\ embeds (get_shape f SubPt) s (buffer_scalars f).
Proof. exact (sub_pt_embeds f). Qed.
Print Assumptions C09_sub_pt_view_embeds.

(** Dense grids: every scalar of the buffer is addressed exactly once. *)
Theorem C09_sub_pt_view_bijective f : sane_dense f -> 0 < l_nbuf f ->
  exists s, get_strides f SubPt 1 = Ok s /\ bijective_on (get_shape f SubPt) s (buffer_scalars f).
Proof. exact (sub_pt_bij f). Qed.
Print Assumptions C09_sub_pt_view_bijective.

(** The layouts that a global collection produces from grid extents and storage
    orders satisfy the hypotheses. *)
Theorem C09_global_collection_layouts order porder n loc comp nsub f :
  global_layout_order order porder n loc comp nsub = Ok f -> Forall (fun x => 0 < x) n ->
  Forall (fun x => 0 < x) comp -> zprod comp < 2 ^ 31 -> 0 < nsub -> order = ColMajor \/ order = RowMajor ->
  sane_dense f /\ l_nbuf f = zprod n /\ l_npix f = zprod n /\ l_pix f = n /\ l_comp f = comp /\
  l_nsub f = nsub /\ l_order f = order.
Proof. exact (global_order_dense order porder n loc comp nsub f). Qed.
Print Assumptions C09_global_collection_layouts.

(** So do collections with padded, nested pixel strides, and local collections. *)
Theorem C09_padded_collection_layouts order n pstr ord loc comp nsub f :
  global_layout order n pstr loc comp nsub = Ok f -> nested n pstr ord -> n <> [] -> Forall (fun x => 0 < x) n ->
  Forall (fun x => 0 < x) comp -> zprod comp < 2 ^ 31 -> 0 < nsub -> order = ColMajor \/ order = RowMajor -> sane f.
Proof. exact (global_nested_sane order n pstr ord loc comp nsub f). Qed.
Print Assumptions C09_padded_collection_layouts.

Theorem C09_local_collection_layouts npix comp nsub :
  0 <= npix -> Forall (fun x => 0 < x) comp -> zprod comp < 2 ^ 31 -> 0 < nsub -> sane_dense (local_layout npix comp nsub).
Proof. exact (local_layout_dense npix comp nsub). Qed.
Print Assumptions C09_local_collection_layouts.

(** Strides in bytes are the strides in elements times the element size. *)
Theorem C09_byte_strides f u e : get_strides f u e = match get_strides f u 1 with
  | Ok s => Ok (map (fun x => x * e) s) | Err x => Err x | UB => UB end.
Proof. exact (strides_element_size f u e). Qed.
Print Assumptions C09_byte_strides.

(** Where a (component, sub-point, pixel) triple lies: components fastest in
    column-major storage, pixels fastest in row-major storage. *)
Theorem C09_offset_formula f s comp q p :
  sane f -> get_strides f SubPt 1 = Ok s -> in_shape (l_comp f) comp -> in_shape (l_pix f) p ->
  off s (comp ++ [q] ++ p) =
  match l_order f with
  | ColMajor => off (running 1 (l_comp f)) comp + l_nbc f * (q + l_nsub f * off (l_pstr f) p)
  | _ => off (l_pstr f) p + l_nbuf f * (q + l_nsub f * off (rev (running 1 (rev (l_comp f)))) comp)
  end.
Proof. exact (sub_pt_offset f s comp q p). Qed.
Print Assumptions C09_offset_formula.

(** A 2x3 component field with 4 sub-points on a 5x2 grid, both orders. *)
Example C09_case_col : exists f, global_layout_order ColMajor Automatic [5; 2] [] [2; 3] 4 = Ok f /\
  get_shape f SubPt = [2; 3; 4; 5; 2] /\ get_strides f SubPt 1 = Ok [1; 2; 6; 24; 120] /\ buffer_scalars f = 240.
Proof. eexists. split; [vm_compute; reflexivity|]. vm_compute. repeat split. Qed.
Example C09_case_row : exists f, global_layout_order RowMajor Automatic [5; 2] [] [2; 3] 4 = Ok f /\
  get_shape f SubPt = [2; 3; 4; 5; 2] /\ get_strides f SubPt 1 = Ok [120; 40; 10; 2; 1] /\ buffer_scalars f = 240 /\
  get_strides f SubPt 8 = Ok [960; 320; 80; 16; 8].
Proof. eexists. split; [vm_compute; reflexivity|]. vm_compute. repeat split. Qed.
Example C09_case_padded : exists f, global_layout ColMajor [5; 2] [1; 7] [] [2; 3] 4 = Ok f /\
  get_strides f SubPt 1 = Ok [1; 2; 6; 24; 168] /\ buffer_scalars f = 336.
Proof. eexists. split; [vm_compute; reflexivity|]. vm_compute. repeat split. Qed.

(** ** C10 *)

(** Column-major storage: the per-pixel view has distinct in-range offsets ... *)
Theorem C10_pixel_view_embeds f : sane f -> l_order f = ColMajor -> l_comp f <> [] \/ l_nsub f = 1 ->
  exists s, get_strides f Pixel 1 = Ok s /\ embeds (get_shape f Pixel) s (buffer_scalars f).
Proof. exact (pixel_view_col f). Qed.
Print Assumptions C10_pixel_view_embeds.

(** ... and reaches exactly the cells the per-sub-point view reaches. *)
Theorem C10_pixel_view_same_cells f : sane f -> l_order f = ColMajor -> l_comp f <> [] \/ l_nsub f = 1 ->
  exists sp ss, get_strides f Pixel 1 = Ok sp /\ get_strides f SubPt 1 = Ok ss /\
    (forall c, in_shape (get_shape f Pixel) c -> exists c', in_shape (get_shape f SubPt) c' /\ off ss c' = off sp c) /\
    (forall c, in_shape (get_shape f SubPt) c -> exists c', in_shape (get_shape f Pixel) c' /\ off sp c' = off ss c).
Proof. exact (pixel_view_same_cells f). Qed.
Print Assumptions C10_pixel_view_same_cells.

(** The correspondence: entry [x + b*q] of the last component axis of the pixel
    view is component [x] at sub-point [q]. *)
Theorem C10_pixel_view_formula f lead b sp ss c x q p :
  sane f -> l_order f = ColMajor -> l_comp f = lead ++ [b] -> 1 < l_nsub f ->
  get_strides f Pixel 1 = Ok sp -> get_strides f SubPt 1 = Ok ss ->
  in_shape lead c -> in_shape (l_pix f) p ->
  get_shape f Pixel = lead ++ [b * l_nsub f] ++ l_pix f /\
  off sp (c ++ [x + b * q] ++ p) = off ss (c ++ [x] ++ [q] ++ p).
Proof. exact (pixel_view_formula f lead b sp ss c x q p). Qed.
Print Assumptions C10_pixel_view_formula.

(** One sub-point per pixel: the views agree in both storage orders. *)
Theorem C10_pixel_view_single_sub_pt f sp ss c p :
  sane f -> l_nsub f = 1 -> get_strides f Pixel 1 = Ok sp -> get_strides f SubPt 1 = Ok ss ->
  in_shape (l_comp f) c -> in_shape (l_pix f) p ->
  get_shape f Pixel = l_comp f ++ l_pix f /\ get_shape f SubPt = l_comp f ++ [1] ++ l_pix f /\
  off sp (c ++ p) = off ss (c ++ [0] ++ p).
Proof. exact (pixel_view_single f sp ss c p). Qed.
Print Assumptions C10_pixel_view_single_sub_pt.

Theorem C10_pixel_view_row_single f : sane f -> l_order f = RowMajor -> l_nsub f = 1 ->
  exists s, get_strides f Pixel 1 = Ok s /\ embeds (get_shape f Pixel) s (buffer_scalars f).
Proof. exact (pixel_view_row_single f). Qed.
Print Assumptions C10_pixel_view_row_single.

Example C10_case : exists f, global_layout_order ColMajor Automatic [5; 2] [] [2; 3] 4 = Ok f /\
  get_shape f Pixel = [2; 12; 5; 2] /\ get_strides f Pixel 1 = Ok [1; 2; 24; 120] /\
  off [1; 2; 24; 120] [1; 2 + 3 * 3; 4; 1] = 239 /\ off [1; 2; 6; 24; 120] [1; 2; 3; 4; 1] = 239.
Proof. eexists. split; [vm_compute; reflexivity|]. vm_compute. repeat split. Qed.

(** ** C48: the pixel view outside those cases *)

(** Row-major storage, several sub-points, a leading component axis longer than
    one: two different multi-indices share a cell, on every such field. *)
Theorem C48_pixel_view_row_major_refuted f lead b :
  sane f -> l_order f = RowMajor -> l_comp f = lead ++ [b] -> 1 < zprod lead -> 1 < l_nsub f ->
  Forall (fun x => 0 < x) (l_pix f) ->
  exists s c c', get_strides f Pixel 1 = Ok s /\ in_shape (get_shape f Pixel) c /\ in_shape (get_shape f Pixel) c' /\
    c <> c' /\ off s c = off s c'.
Proof. exact (pixel_view_row_alias f lead b). Qed.
Print Assumptions C48_pixel_view_row_major_refuted.

(** Scalar fields declared with an empty component shape: one stride too few. *)
Theorem C48_scalar_rank_refuted f s : l_comp f = [] -> 1 < l_nsub f -> length (l_pstr f) = length (l_pix f) ->
  get_strides f Pixel 1 = Ok s -> length (get_shape f Pixel) = S (length s).
Proof. exact (pixel_view_scalar_rank f s). Qed.
Print Assumptions C48_scalar_rank_refuted.

Example C48_row_major_case : exists f, global_layout_order RowMajor Automatic [5; 2] [] [2; 3] 4 = Ok f /\
  get_shape f Pixel = [2; 12; 5; 2] /\ get_strides f Pixel 1 = Ok [30; 10; 2; 1] /\
  off [30; 10; 2; 1] [1; 0; 0; 0] = off [30; 10; 2; 1] [0; 3; 0; 0].
Proof. eexists. split; [vm_compute; reflexivity|]. vm_compute. repeat split. Qed.
Example C48_scalar_case : exists f, global_layout_order ColMajor Automatic [5; 2] [] [] 4 = Ok f /\
  get_shape f Pixel = [4; 5; 2] /\ get_strides f Pixel 1 = Ok [4; 20].
Proof. eexists. split; [vm_compute; reflexivity|]. vm_compute. repeat split. Qed.

(** ** C11 *)

(** Reshape keeps everything but the component shape. *)
Theorem C11_reshape f shape : Forall (fun x => 0 < x) shape -> zprod shape < 2 ^ 31 ->
  ((exists g, reshape f shape = Ok g) <-> zprod shape = l_nbc f) /\
  (zprod shape <> l_nbc f -> reshape f shape = Err FieldError) /\
  (forall g, reshape f shape = Ok g -> l_comp g = shape /\ l_nbc g = zprod shape /\ l_nsub g = l_nsub f /\
     l_order g = l_order f /\ l_pix g = l_pix f /\ l_pstr g = l_pstr f /\ l_npix g = l_npix f /\ l_nbuf g = l_nbuf f /\
     buffer_scalars g = buffer_scalars f /\ (sane f -> sane g)).
Proof. exact (reshape_iff f shape). Qed.
Print Assumptions C11_reshape.

(** Reshape with a change of sub-division. *)
Theorem C11_reshape_sub_division f shape nsub : Forall (fun x => 0 < x) shape -> zprod shape < 2 ^ 31 ->
  ((exists g, reshape_sub f shape nsub = Ok g) <-> zprod shape * nsub = l_nbc f * l_nsub f) /\
  (zprod shape * nsub <> l_nbc f * l_nsub f -> reshape_sub f shape nsub = Err FieldError) /\
  (forall g, reshape_sub f shape nsub = Ok g -> l_comp g = shape /\ l_nbc g = zprod shape /\ l_nsub g = nsub /\
     l_order g = l_order f /\ l_pix g = l_pix f /\ l_pstr g = l_pstr f /\ l_npix g = l_npix f /\ l_nbuf g = l_nbuf f /\
     buffer_scalars g = buffer_scalars f /\ (sane f -> 0 < nsub -> sane g)).
Proof. exact (reshape_sub_iff f shape nsub). Qed.
Print Assumptions C11_reshape_sub_division.

Example C11_case : exists f g, global_layout_order ColMajor Automatic [5; 2] [] [2; 3] 4 = Ok f /\
  reshape_sub f [2; 2; 2] 3 = Ok g /\ get_shape g SubPt = [2; 2; 2; 3; 5; 2] /\ buffer_scalars g = 240 /\
  reshape_sub f [5] 5 = Err FieldError.
Proof. do 2 eexists. split; [vm_compute; reflexivity|]. split; [vm_compute; reflexivity|]. vm_compute. repeat split. Qed.

(** ** C12 *)

(** Same verdict and same number of components: identical shapes and strides. *)
Theorem C12_same_layout_sound f g : sane f -> sane g -> l_nbc f = l_nbc g ->
  get_buffer_size (l_pix f) (l_pstr f) = Ok (l_nbuf f) -> get_buffer_size (l_pix g) (l_pstr g) = Ok (l_nbuf g) ->
  has_same_memory_layout f g = Ok true ->
  l_comp f = l_comp g /\ forall u, get_shape f u = get_shape g u /\ get_strides f u 1 = get_strides g u 1.
Proof. exact (same_layout_sound f g). Qed.
Print Assumptions C12_same_layout_sound.

(** Identical parameters give a positive verdict. *)
Theorem C12_same_layout_complete f g : l_order f = ColMajor \/ l_order f = RowMajor ->
  l_pix f = l_pix g -> l_order f = l_order g -> l_pstr f = l_pstr g -> l_nsub f = l_nsub g -> l_comp f = l_comp g ->
  has_same_memory_layout f g = Ok true.
Proof. exact (same_layout_complete f g). Qed.
Print Assumptions C12_same_layout_complete.

Example C12_case : exists f g h, global_layout_order RowMajor Automatic [5; 2] [] [2; 3] 4 = Ok f /\
  global_layout_order RowMajor RowMajor [5; 2] [] [2; 3] 4 = Ok g /\
  global_layout_order RowMajor ColMajor [5; 2] [] [2; 3] 4 = Ok h /\
  has_same_memory_layout f g = Ok true /\ has_same_memory_layout f h = Ok false.
Proof. do 3 eexists. do 3 (split; [vm_compute; reflexivity|]). vm_compute. repeat split. Qed.

(** ** C49: without the condition on the number of components *)

(** On every grid, a field of [n] components and a field of [m] components are
    reported to have the same layout. *)
Theorem C49_same_layout_component_count_refuted f n m nsub :
  l_order f = ColMajor \/ l_order f = RowMajor ->
  has_same_memory_layout
    (layout_of_nb n nsub (l_order f) (l_pix f) (l_pstr f) (l_npix f) (l_nbuf f))
    (layout_of_nb m nsub (l_order f) (l_pix f) (l_pstr f) (l_npix f) (l_nbuf f)) = Ok true.
Proof.
  intros [H|H]; unfold has_same_memory_layout, collection_same_layout, get_components_strides; cbn; rewrite H;
  rewrite !(proj2 (zlist_eqb_eq _ _) eq_refl), Z.eqb_refl; reflexivity.
Qed.
Print Assumptions C49_same_layout_component_count_refuted.

Example C49_case : exists f g, global_layout_order ColMajor Automatic [5; 2] [] [3] 4 = Ok f /\
  global_layout_order ColMajor Automatic [5; 2] [] [5] 4 = Ok g /\
  has_same_memory_layout f g = Ok true /\ get_strides f SubPt 1 = Ok [1; 3; 12; 60] /\ get_strides g SubPt 1 = Ok [1; 5; 20; 100].
Proof. do 2 eexists. do 2 (split; [vm_compute; reflexivity|]). vm_compute. repeat split. Qed.
