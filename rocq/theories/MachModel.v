(** The index arithmetic of GridModel.v, LayoutModel.v and StridedModel.v in the types
    of the code: [Index_t] is a signed 64-bit integer (grid_common.hh:66-80), whose
    overflow is undefined behaviour; [size_t] is unsigned with 64 bits and wraps.
    [Dim_t] (32 bits) is as in CIntModel.v. *)
From Verif Require Import Base CIntModel GridModel LayoutModel StridedModel.

(** A result of type [Index_t]. *)
Definition fits64 (z : Z) : bool := (- 2 ^ 63 <=? z) && (z <? 2 ^ 63).
Definition ix (z : Z) : res Z := if fits64 z then Ok z else UB.
(** A result of type [size_t], and its conversion to [Index_t]. *)
Definition us (z : Z) : Z := z mod 2 ^ 64.
Definition to_index (z : Z) : Z := (z + 2 ^ 63) mod 2 ^ 64 - 2 ^ 63.

(** ** Grids (ccoord_operations.hh, .cc) *)

(** [ret_val *= n] for the extents of a list. *)
Fixpoint mul_up (acc : Z) (l : list Z) : res Z :=
  match l with
  | [] => Ok acc
  | n :: r => let! a := ix (acc * n) in mul_up a r
  end.
(** 76-99 [col_major_stride], [row_major_stride] *)
Definition m_col_major_stride (n : list Z) (index : nat) : res Z := mul_up 1 (firstn index n).
Definition m_row_major_stride (n : list Z) (index : nat) : res Z := mul_up 1 (rev (skipn (S index) n)).
(** 101-115, 254-333 *)
Definition m_get_col_major_strides (n : list Z) : res (list Z) :=
  if dyn_dim_ok n then mapM (m_col_major_stride n) (seq 0 (length n)) else Err RuntimeError.
Definition m_get_row_major_strides (n : list Z) : res (list Z) :=
  if dyn_dim_ok n then mapM (m_row_major_stride n) (seq 0 (length n)) else Err RuntimeError.

(** 405-450 [get_ccoord_from_axes_order]; the quotient overflows for the smallest
    number and -1 only. *)
Fixpoint m_ccoord_loop (strides : list Z) (raxes : list nat) (index : Z) (ret : list Z) : res (list Z) :=
  match raxes with
  | [] => Ok ret
  | a :: r =>
      let s := zn strides a in
      if s =? 0 then UB
      else let! cur := ix (Z.quot index s) in
           let! p := ix (cur * s) in
           let! i := ix (index - p) in
           m_ccoord_loop strides r i (upd ret a cur)
  end.
Definition m_get_ccoord_from_axes_order (n loc strides : list Z) (axes : list nat) (index : Z) : res (list Z) :=
  let! ret := m_ccoord_loop strides (rev axes) index (repeat 0 (length n)) in
  mapM (fun p => ix (fst p + snd p)) (combine ret loc).

(** 486-505 [compute_volume] *)
Definition m_compute_volume (n : list Z) : res Z := mul_up 1 n.
(** 511-532 [is_buffer_contiguous]: [stride *= n] multiplies in [Index_t] and
    converts to [Dim_t]. *)
Fixpoint m_contiguous_walk (n strides : list Z) (axes : list nat) (stride : Z) (acc : bool) : res bool :=
  match axes with
  | [] => Ok acc
  | a :: r => let! p := ix (stride * zn n a) in
              m_contiguous_walk n strides r (wrap32 p) (acc && (zn strides a =? stride))
  end.
Definition m_is_buffer_contiguous_ax (n strides : list Z) (axes : list nat) : res bool :=
  if (length n =? 0)%nat then Ok true
  else let! v := m_compute_volume n in
       if v =? 0 then Ok true
       else if negb (length strides =? length n)%nat then Err RuntimeError
       else m_contiguous_walk n strides axes 1 true.
(** 535-574 [get_index_from_strides] *)
Fixpoint m_stride_sum (acc : Z) (l : list (Z * (Z * Z))) : res Z :=
  match l with
  | [] => Ok acc
  | (s, (loc, c)) :: r =>
      let! d := ix (c - loc) in let! p := ix (s * d) in let! a := ix (acc + p) in m_stride_sum a r
  end.
Definition m_get_index_from_strides (strides loc c : list Z) : res Z :=
  if negb (length loc =? length strides)%nat then Err RuntimeError
  else if negb (length c =? length strides)%nat then Err RuntimeError
  else m_stride_sum 0 (combine strides (combine loc c)).
(** 578-597 [get_size] *)
Definition m_get_size (n : list Z) : Z := fold_left (fun acc x => us (acc * x)) n 1.
(** 601-612, ccoord_operations.cc:83-119 [get_buffer_size] *)
Fixpoint m_max_product (acc : Z) (l : list (Z * Z)) : res Z :=
  match l with
  | [] => Ok acc
  | (n, s) :: r => let! p := ix (n * s) in m_max_product (Z.max acc (us p)) r
  end.
Definition m_get_buffer_size (n strides : list Z) : res Z :=
  if negb (length strides =? length n)%nat then Err RuntimeError
  else m_max_product 0 (combine n strides).
(** ccoord_operations.cc:148-174: constructor of pixels with strides *)
Definition m_pixels_strided_with (axes : list nat) (n loc strides : list Z) : res pixels :=
  let! b := m_is_buffer_contiguous_ax n strides axes in
  let l := default_loc n loc in
  if negb (length l =? length n)%nat then Err RuntimeError
  else if negb (length strides =? length n)%nat then Err RuntimeError
  else Ok (mk_pixels n l strides axes b).
(** grid_common.hh:187-192 [get_nb_from_shape]: the product is an [Index_t]. *)
Fixpoint m_accumulate_mul (acc : Z) (shape : list Z) : res Z :=
  match shape with
  | [] => Ok acc
  | n :: r => let! p := ix (acc * n) in m_accumulate_mul (wrap32 p) r
  end.

(** ** Collections *)

(** field_collection_global.cc:125-127: [for (int i{0}; i < nb_pixels; ++i)]; an [int]
    does not get beyond 2^31 - 1. *)
Definition m_pixel_indices (npix : Z) : res (list Z) :=
  if npix <=? 2 ^ 31 - 1 then Ok (zrange (Z.to_nat npix)) else UB.
(** What a collection has after [initialise]: pixels, their number, that of the
    buffer, and the indices. *)
Definition grid_data : Type := pixels * Z * Z * list Z.
(** 86-131, without the fields; [axes] is the result of [std::sort]. *)
Definition m_init_grid (axes : list nat) (nd nsd loc pstr : list Z) : res grid_data :=
  let n := if (length nsd =? 0)%nat then nd else nsd in
  let! t := m_accumulate_mul 1 nd in
  if t <=? 0 then Err FieldCollectionError
  else
    let! t := m_accumulate_mul 1 n in
    if t <? 0 then Err FieldCollectionError
    else
      let! p := m_pixels_strided_with axes n loc pstr in
      let npix := to_index (m_get_size n) in
      let! nbuf := m_get_buffer_size n pstr in
      let! l := m_pixel_indices npix in
      Ok (p, npix, to_index nbuf, l).

(** ** Fields (field.cc, field_typed.cc) *)

(** field.cc:211-216: the accumulator is multiplied after the last entry, too. *)
Fixpoint m_running (acc : Z) (l : list Z) : res (list Z) :=
  match l with
  | [] => Ok []
  | n :: r => let! a := ix (acc * n) in let! t := m_running a r in Ok (acc :: t)
  end.
Definition m_components_strides (f : layout) (e : Z) : res (list Z) :=
  match l_order f with
  | ColMajor => m_running e (l_comp f)
  | RowMajor => let! s := m_running e (rev (l_comp f)) in Ok (rev s)
  | _ => Err FieldError
  end.
Definition m_scale (k : Z) (l : list Z) : res (list Z) := mapM (fun x => ix (x * k)) l.
(** 225-246 *)
Definition m_sub_pt_strides (f : layout) (u : iter_unit) (e : Z) : res (list Z) :=
  let! s := m_components_strides f e in
  match u with
  | Pixel => Ok s
  | SubPt =>
      match l_order f with
      | RowMajor => let! t := m_scale (l_nsub f) s in Ok (t ++ [e])
      | _ => let! c := ix (l_nbc f * e) in Ok (s ++ [c])
      end
  end.
(** 254-276, with [get_nb_dof_per_pixel] and [get_pixels_strides] *)
Definition m_get_strides (f : layout) (u : iter_unit) (e : Z) : res (list Z) :=
  let! s := m_sub_pt_strides f u e in
  match l_order f with
  | ColMajor => let! p := m_scale e (l_pstr f) in let! d := ix (l_nbc f * l_nsub f) in let! q := m_scale d p in Ok (s ++ q)
  | RowMajor => let! t := m_scale (l_nbuf f) s in let! p := m_scale e (l_pstr f) in Ok (t ++ p)
  | _ => Err FieldError
  end.
(** field_typed.cc:204-205: [size * nb_components + pad_size], the sum unsigned *)
Definition m_buffer_scalars (f : layout) (pad : Z) : res Z :=
  let! size := ix (l_nsub f * l_nbuf f) in let! p := ix (size * l_nbc f) in Ok (us (p + pad)).

(** ** Strided copies (raw_memory_operations.hh) *)

(** 55-58 [linear_index]: products of [Index_t], sum of [size_t] *)
Fixpoint m_linear_index (acc : Z) (l : list (Z * Z)) : res Z :=
  match l with
  | [] => Ok acc
  | (i, s) :: r => let! p := ix (i * s) in m_linear_index (us (acc + p)) r
  end.
(** 94-107 [operator++] *)
Fixpoint m_carry_loop (shape : list Z) (prev : nat) (rest : list nat) (idx : list Z) : res (list Z) :=
  match rest with
  | [] => Ok idx
  | a :: r =>
      if zn shape prev =? 0 then UB
      else let! x := ix (zn idx a + Z.quot (zn idx prev) (zn shape prev)) in m_carry_loop shape a r (upd idx a x)
  end.
Definition m_odo_next (shape : list Z) (axes : list nat) (idx : list Z) : res (list Z) :=
  match axes with
  | [] => UB
  | a :: r =>
      let! x := ix (zn idx a + 1) in
      let! u := m_carry_loop shape a r (upd idx a x) in
      reduce_loop u shape
  end.
(** 130-156 [strided_copy] *)
Fixpoint m_copy_loop {A} (k : nat) (shape : list Z) (axes : list nat) (is os idx : list Z) (inb outb : list A) : res (list A) :=
  match k with
  | O => Ok outb
  | S k' =>
      let! from := m_linear_index 0 (combine idx is) in
      let! to := m_linear_index 0 (combine idx os) in
      let! v := rd inb from in
      let! outb' := wr outb to v in
      let! idx' := m_odo_next shape axes idx in
      m_copy_loop k' shape axes is os idx' inb outb'
  end.
Definition m_strided_copy_with {A} (axes : list nat) (shape is os : list Z) (inb outb : list A) : res (list A) :=
  if negb (length shape =? length is)%nat then Err RuntimeError
  else if negb (length shape =? length os)%nat then Err RuntimeError
  else let! k := m_accumulate_mul 1 shape in
       m_copy_loop (Z.to_nat (us k)) shape axes is os (repeat 0 (length shape)) inb outb.
