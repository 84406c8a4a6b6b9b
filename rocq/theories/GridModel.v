(** Grid coordinates, strides and pixel iteration
    (ccoord_operations.hh / ccoord_operations.cc).

    Integers of type [Index_t] (64 bit) and [size_t] are modelled by [Z];
    64-bit overflow is not modelled.  Where the code uses the 32-bit type
    [Dim_t] for a product, the conversion is explicit ([wrap32]).
    Coordinates ([Ccoord_t], [DynCcoord_t], [Shape_t]) are lists of [Z]. *)
From Verif Require Import Base CIntModel.

(** ccoord_operations.hh:76-87 [col_major_stride]: product of the extents of
    the axes before [index], accumulated from axis 0 upwards. *)
Definition col_major_stride (n : list Z) (index : nat) : Z :=
  fold_left Z.mul (firstn index n) 1.

(** ccoord_operations.hh:89-99 [row_major_stride]: product of the extents of
    the axes after [index], accumulated from the last axis downwards. *)
Definition row_major_stride (n : list Z) (index : nat) : Z :=
  fold_left Z.mul (rev (skipn (S index) n)) 1.

(** ccoord_operations.hh:101-115, 254-260, 295-301: the statically sized
    [get_col_major_strides] / [get_row_major_strides]. *)
Definition col_major_strides (n : list Z) : list Z :=
  map (col_major_stride n) (seq 0 (length n)).
Definition row_major_strides (n : list Z) : list Z :=
  map (row_major_stride n) (seq 0 (length n)).

(** ccoord_operations.hh:262-292, 303-333: the [DynCcoord] versions switch on
    the dimension and throw for anything but 1, 2 and 3. *)
Definition dyn_dim_ok (n : list Z) : bool :=
  match length n with 1%nat | 2%nat | 3%nat => true | _ => false end.
Definition get_col_major_strides (n : list Z) : res (list Z) :=
  if dyn_dim_ok n then Ok (col_major_strides n) else Err RuntimeError.
Definition get_row_major_strides (n : list Z) : res (list Z) :=
  if dyn_dim_ok n then Ok (row_major_strides n) else Err RuntimeError.

(** ccoord_operations.hh:337-350 [get_ccoord]: the column-major coordinate of
    an index.  [index / factor % n[i] + loc[i]]; the factor is not multiplied
    after the last axis.  A zero factor or extent is undefined behaviour. *)
Fixpoint get_ccoord_loop (n loc : list Z) (index factor : Z) : res (list Z) :=
  match n, loc with
  | ni :: n', li :: loc' =>
      if (factor =? 0) || (ni =? 0) then UB
      else
        let! rest := get_ccoord_loop n' loc' index (factor * ni) in
        Ok (Z.rem (Z.quot index factor) ni + li :: rest)
  | _, _ => Ok []
  end.
Definition get_ccoord (n loc : list Z) (index : Z) : res (list Z) :=
  get_ccoord_loop n loc index 1.

(** ccoord_operations.hh:374-400, comparator of [compute_axes_order]. *)
Definition axes_lt (shape strides : list Z) (a b : nat) : bool :=
  ((zn strides a =? 1) && (zn strides b =? 1) && (zn shape a <? zn shape b))
  || (zn strides a <? zn strides b).

(** [std::sort] guarantees a permutation in which no later element is smaller
    than an earlier one; it does not say how ties are ordered.  Statements
    about [compute_axes_order] are made for every such permutation. *)
Definition sort_outcome (shape strides : list Z) (axes : list nat) : Prop :=
  Permutation axes (seq 0 (length shape)) /\
  forall i j, (i < j < length axes)%nat ->
    axes_lt shape strides (nth j axes 0%nat) (nth i axes 0%nat) = false.

(** An executable outcome: insertion sort, stable, which is what the libstdc++
    implementation does for up to 16 elements. *)
Fixpoint insert_axis (shape strides : list Z) (a : nat) (l : list nat) : list nat :=
  match l with
  | [] => [a]
  | b :: r => if axes_lt shape strides a b then a :: l
              else b :: insert_axis shape strides a r
  end.
Definition compute_axes_order (shape strides : list Z) : list nat :=
  fold_left (fun acc a => insert_axis shape strides a acc) (seq 0 (length shape)) [].

(** ccoord_operations.hh:405-450 [get_ccoord_from_axes_order]: walk the axes
    from the slowest to the fastest, divide off the stride.  The list [raxes]
    is the axes order reversed.  C++ integer division truncates; division by a
    zero stride is undefined behaviour. *)
Fixpoint ccoord_loop (strides : list Z) (raxes : list nat) (index : Z) (ret : list Z)
  : res (list Z) :=
  match raxes with
  | [] => Ok ret
  | a :: r =>
      let s := zn strides a in
      if s =? 0 then UB
      else let cur := Z.quot index s in
           ccoord_loop strides r (index - cur * s) (upd ret a cur)
  end.

(** Component-wise addition of the sub-domain location. *)
Definition add_coords (a b : list Z) : list Z :=
  map (fun p => fst p + snd p) (combine a b).

Definition get_ccoord_from_axes_order
    (n loc strides : list Z) (axes : list nat) (index : Z) : res (list Z) :=
  let! ret := ccoord_loop strides (rev axes) index (repeat 0 (length n)) in
  Ok (add_coords ret loc).

(** ccoord_operations.hh:464-476 and ccoord_operations.cc:45-69 [get_index]:
    column-major index; result and factor are 32-bit [Dim_t]. *)
Fixpoint get_index_loop (n loc c : list Z) (acc factor : Z) : Z :=
  match n, loc, c with
  | ni :: n', li :: loc', ci :: c' =>
      let acc' := wrap32 (acc + (ci - li) * factor) in
      let factor' := match n' with [] => factor | _ => wrap32 (factor * ni) end in
      get_index_loop n' loc' c' acc' factor'
  | _, _, _ => acc
  end.
Definition get_index (n loc c : list Z) : res Z :=
  if negb (length loc =? length n)%nat then Err RuntimeError
  else if negb (length c =? length n)%nat then Err RuntimeError
  else Ok (get_index_loop n loc c 0 1).

(** ccoord_operations.hh:486-505 [compute_volume] on [Index_t]. *)
Definition compute_volume (n : list Z) : Z := fold_left Z.mul n 1.

(** ccoord_operations.hh:511-532 [is_buffer_contiguous]; the running stride is
    a 32-bit [Dim_t]. *)
Fixpoint contiguous_walk (n strides : list Z) (axes : list nat) (stride : Z) (acc : bool)
  : bool :=
  match axes with
  | [] => acc
  | a :: r => contiguous_walk n strides r (wrap32 (stride * zn n a))
                              (acc && (zn strides a =? stride))
  end.
Definition is_buffer_contiguous_ax (n strides : list Z) (axes : list nat) : res bool :=
  if (length n =? 0)%nat then Ok true
  else if compute_volume n =? 0 then Ok true
  else if negb (length strides =? length n)%nat then Err RuntimeError
  else Ok (contiguous_walk n strides axes 1 true).
Definition is_buffer_contiguous (n strides : list Z) : res bool :=
  is_buffer_contiguous_ax n strides (compute_axes_order n strides).

(** ccoord_operations.hh:535-574 [get_index_from_strides]. *)
Definition stride_sum (strides loc c : list Z) : Z :=
  fold_left (fun acc p => acc + fst p * (snd (snd p) - fst (snd p)))
            (combine strides (combine loc c)) 0.
Definition get_index_from_strides (strides loc c : list Z) : res Z :=
  if negb (length loc =? length strides)%nat then Err RuntimeError
  else if negb (length c =? length strides)%nat then Err RuntimeError
  else Ok (stride_sum strides loc c).

(** ccoord_operations.hh:578-597 [get_size]. *)
Definition get_size (n : list Z) : Z := fold_left Z.mul n 1.

(** ccoord_operations.hh:601-612 and ccoord_operations.cc:83-119
    [get_buffer_size]: maximum over the axes of extent times stride.  The cast
    to [size_t] is modelled as the identity: extents and strides are assumed
    non-negative here. *)
Definition get_buffer_size (n strides : list Z) : res Z :=
  if negb (length strides =? length n)%nat then Err RuntimeError
  else Ok (fold_left (fun acc p => Z.max acc (fst p * snd p)) (combine n strides) 0).

(** ccoord_operations.hh:633-770: the state of a [DynamicPixels] object. *)
Record pixels := mk_pixels {
  px_nb : list Z;        (* nb_subdomain_grid_pts *)
  px_loc : list Z;       (* subdomain_locations *)
  px_strides : list Z;   (* strides *)
  px_axes : list nat;    (* axes_order *)
  px_contiguous : bool   (* contiguous *)
}.

(** A location of dimension 0 stands for the origin (ccoord_operations.cc:134-137). *)
Definition default_loc (n loc : list Z) : list Z :=
  if (length loc =? 0)%nat then repeat 0 (length n) else loc.

(** ccoord_operations.cc:127-146: column-major constructor.  [axes] is the
    result of the call to [std::sort] in [compute_axes_order]. *)
Definition pixels_default_with (axes : list nat) (n loc : list Z) : res pixels :=
  let! s := get_col_major_strides n in
  let l := default_loc n loc in
  if negb (length l =? length n)%nat then Err RuntimeError
  else Ok (mk_pixels n l s axes true).
Definition pixels_default (n loc : list Z) : res pixels :=
  pixels_default_with (compute_axes_order n (col_major_strides n)) n loc.

(** ccoord_operations.cc:148-174: constructor with strides.
    [is_buffer_contiguous] and the two dimension checks raise the same
    exception class.  [axes] is the result of [std::sort]; the two calls of
    [compute_axes_order] have equal arguments and give the same result. *)
Definition pixels_strided_with (axes : list nat) (n loc strides : list Z) : res pixels :=
  let! b := is_buffer_contiguous_ax n strides axes in
  let l := default_loc n loc in
  if negb (length l =? length n)%nat then Err RuntimeError
  else if negb (length strides =? length n)%nat then Err RuntimeError
  else Ok (mk_pixels n l strides axes b).
Definition pixels_strided (n loc strides : list Z) : res pixels :=
  pixels_strided_with (compute_axes_order n strides) n loc strides.

(** ccoord_operations.hh:678-681 *)
Definition px_get_index (p : pixels) (c : list Z) : res Z :=
  get_index_from_strides (px_strides p) (px_loc p) c.
(** ccoord_operations.hh:695-699 *)
Definition px_get_ccoord (p : pixels) (i : Z) : res (list Z) :=
  get_ccoord_from_axes_order (px_nb p) (px_loc p) (px_strides p) (px_axes p) i.

(** ccoord_operations.hh:760-820 and ccoord_operations.cc:200-231: iteration
    from index 0 to [size()], refused for non-contiguous pixels. *)
Fixpoint mapM {A B} (f : A -> res B) (l : list A) : res (list B) :=
  match l with
  | [] => Ok []
  | x :: r => let! y := f x in let! ys := mapM f r in Ok (y :: ys)
  end.
Definition px_iterate (p : pixels) : res (list (list Z)) :=
  if px_contiguous p
  then mapM (px_get_ccoord p) (zrange (Z.to_nat (get_size (px_nb p))))
  else Err RuntimeError.
(** ccoord_operations.hh:880-884: enumerate pairs [get_index(ccoord)] with the
    coordinate. *)
Definition px_enumerate (p : pixels) : res (list (Z * list Z)) :=
  let! cs := px_iterate p in
  mapM (fun c => let! i := px_get_index p c in Ok (i, c)) cs.
