(** The default discrete gradient operator (gradient_operator_default.hh/.cc).
    Reals are elements of a commutative ring, sizes ([Index_t]) are natural
    numbers.  The nodal field and the quadrature point field are different
    objects. *)
From Verif Require Import Base GridModel RingModel.
Local Open Scope list_scope.

(** [Eigen::MatrixXd] / [Eigen::MatrixXi]: sizes and coefficients. *)
Record mat (A : Type) := mk_mat { m_rows : nat; m_cols : nat; m_at : nat -> nat -> A }.
Arguments mk_mat {A} _ _ _.
Arguments m_rows {A} _.
Arguments m_cols {A} _.
Arguments m_at {A} _ _ _.

(** A field of the operator's arguments: whether its collection is global and
    its storage order column-major, components per sub-point, sub-points per
    pixel, and the buffer (array of structures: pixel, then sub-point, then
    component). *)
Record gfield (R : Type) := mk_gfield {
  fd_global : bool; fd_colmajor : bool; fd_comps : nat; fd_pts : nat; fd_mem : list R }.
Arguments mk_gfield {R} _ _ _ _ _.
Arguments fd_global {R} _.
Arguments fd_colmajor {R} _.
Arguments fd_comps {R} _.
Arguments fd_pts {R} _.
Arguments fd_mem {R} _.

Definition with_mem {R} (f : gfield R) (m : list R) : gfield R := mk_gfield (fd_global f) (fd_colmajor f) (fd_comps f) (fd_pts f) m.

(** The operator: spatial dimension, quadrature points per element, elements,
    nodes per element, nodes per pixel, and the rows of [pixel_gradient]. *)
Record gop (R : Type) := mk_gop {
  op_dim : nat; op_nq : nat; op_ne : nat; op_nen : nat; op_npn : nat; op_B : list (list R) }.
Arguments mk_gop {R} _ _ _ _ _ _.
Arguments op_dim {R} _.
Arguments op_nq {R} _.
Arguments op_ne {R} _.
Arguments op_nen {R} _.
Arguments op_npn {R} _.
Arguments op_B {R} _.

(** gradient_operator_default.cc:57-69, lambda [linear_index]. *)
Definition linear_index (npn : nat) (node : Z) (offset : list Z) : Z :=
  fst (fold_left (fun a x => (fst a + snd a * x, snd a * 2)) offset (node, Z.of_nat npn)).

(** gradient_operator_default.cc:48-77 [permutation]: row [i] has a one in the
    column given by [linear_index]; writing outside the matrix is undefined
    behaviour.  The result is the list of columns. *)
Definition permutation (sd npn : nat) (ids : list Z) (offs : mat Z) : res (list nat) :=
  mapM (fun i =>
          let l := linear_index npn (zn ids i) (map (m_at offs i) (seq 0 sd)) in
          if (0 <=? l) && (l <? Z.of_nat (2 ^ sd * npn)) then Ok (Z.to_nat l) else UB)
       (seq 0 (m_rows offs)).

Section WithRing.
Context {R : Type} (o : ops R).

(** gradient_operator_default.cc:156: row [d] of [grad * permutation_matrix]. *)
Definition product_row (ncols : nat) (g : mat R) (cols : list nat) (d : nat) : list R :=
  map (fun col => sum_below o (length cols)
                    (fun i => mul o (m_at g d i) (if nth i cols ncols =? col then one o else zero o)%nat))
      (seq 0 ncols).

(** gradient_operator_default.cc:132-157, one pass of the loop over [q]. *)
Definition quad_block (sd nen npn e : nat) (grads : list (list (mat R))) (cols : list nat) (q : nat) : res (list (list R)) :=
  match nth_error grads q with
  | None => Err OutOfRange
  | Some gq =>
      match nth_error gq e with
      | None => Err OutOfRange
      | Some g =>
          if negb (m_rows g =? sd)%nat then Err RuntimeError
          else if negb (m_cols g =? nen)%nat then Err RuntimeError
          else Ok (map (product_row (2 ^ sd * npn) g cols) (seq 0 sd))
      end
  end.

(** gradient_operator_default.cc:99-158, one pass of the loop over [e]. *)
Definition element_block (sd nq nen npn : nat) (grads : list (list (mat R))) (pts : list (list Z * mat Z)) (e : nat) : res (list (list R)) :=
  match nth_error pts e with
  | None => Err OutOfRange
  | Some (ids, offs) =>
      if negb (length ids =? nen)%nat then Err RuntimeError
      else if negb (m_rows offs =? nen)%nat then Err RuntimeError
      else if negb (m_cols offs =? sd)%nat then Err RuntimeError
      else
        let! cols := permutation sd npn ids offs in
        let! blocks := mapM (quad_block sd nen npn e grads cols) (seq 0 nq) in
        Ok (concat blocks)
  end.

(** gradient_operator_default.cc:80-160: the constructor. *)
Definition construct (sd nq ne nen npn : nat) (grads : list (list (mat R))) (pts : list (list Z * mat Z)) : res (gop R) :=
  let! blocks := mapM (element_block sd nq nen npn grads pts) (seq 0 ne) in
  Ok (mk_gop sd nq ne nen npn (concat blocks)).

(** gradient_operator_default.cc:347-349 *)
Definition nb_pixel_quad_pts (g : gop R) : nat := op_nq g * op_ne g.

(** Coefficient of [pixel_gradient]. *)
Definition B_at (g : gop R) (row col : nat) : R := nth col (nth row (op_B g) []) (zero o).

(** [mem] with [f k] added at [pos + k] for [k < len]: [+=] on the block that
    an Eigen map views. *)
Definition blk_add (mem : list R) (pos len : nat) (f : nat -> R) : list R :=
  map (fun i => if (pos <=? i)%nat && (i <? pos + len)%nat then add o (nth i mem (zero o)) (f (i - pos)%nat) else nth i mem (zero o))
      (seq 0 (length mem)).

(** Distance of pixels in the buffer. *)
Definition px_stride (f : gfield R) : nat := fd_comps f * fd_pts f.

(** grid_common.hh:429-441 [operator%], component-wise C++ remainder; division
    by zero is undefined behaviour. *)
Definition ccoord_rem (a b : list Z) : res (list Z) :=
  mapM (fun p => if snd p =? 0 then UB else Ok (Z.rem (fst p) (snd p))) (combine a b).

(** gradient_operator_default.cc:223-225 and 236: the pixel at an offset;
    [operator+] is grid_common.hh:529-541. *)
Definition neighbour (p : pixels) (base offset : list Z) : res Z :=
  if negb (length base =? length offset)%nat then Err RuntimeError
  else
    let! c := ccoord_rem (add_coords base offset) (px_nb p) in
    px_get_index p c.

(** A pixel view [map[i]] lies inside the buffer. *)
Definition in_buffer (f : gfield R) (i : Z) : bool :=
  (0 <=? i) && (Z.to_nat i * px_stride f + px_stride f <=? length (fd_mem f))%nat.

(** gradient_operator_default.cc:211, 318: the offsets of the stencil, all
    coordinates of a cube of extent 2 with their position. *)
Definition stencil (sd : nat) : res (list (nat * list Z)) :=
  let! cube := pixels_default (repeat 2 sd) [] in
  let! cs := px_iterate cube in
  Ok (combine (seq 0 (length cs)) cs).

(** Calls of the loop body in order; stops at the first that does not return. *)
Fixpoint loop {A S} (body : S -> A -> res S) (s : S) (l : list A) : res S :=
  match l with [] => Ok s | x :: r => let! s' := body s x in loop body s' r end.

(** gradient_operator_default.cc:174-196, 264-302: the checks of both
    directions. *)
Definition fields_fit (g : gop R) (nodal quad : gfield R) : res unit :=
  if negb (fd_global quad) then Err RuntimeError
  else if negb (fd_global nodal) then Err RuntimeError
  else if negb (fd_comps quad =? op_dim g * fd_comps nodal)%nat then Err RuntimeError
  (* field_map.cc:66-81: division by [nb_rows], column-major storage only *)
  else if (fd_comps nodal =? 0)%nat then UB
  else if negb (fd_colmajor nodal) then Err RuntimeError
  else if negb (fd_colmajor quad) then Err RuntimeError
  else Ok tt.

(** Eigen refuses (debug) or reads outside (release) when the numbers of
    sub-points do not fit the blocks of [pixel_gradient]. *)
Definition points_fit (g : gop R) (nodal quad : gfield R) : bool :=
  (fd_pts nodal =? op_npn g)%nat && (fd_pts quad =? nb_pixel_quad_pts g)%nat.

(** gradient_operator_default.cc:238: coefficient [k] (column-major) of
    [alpha * nodal_vals * B_block.transpose()]. *)
Definition grad_increment (g : gop R) (alpha : R) (nodal : gfield R) (j : nat) (index k : nat) : R :=
  let c := fd_comps nodal in
  sum_below o (op_npn g) (fun m =>
    mul o (mul o alpha (nth (j * px_stride nodal + m * c + k mod c) (fd_mem nodal) (zero o)))
          (B_at g (k / c) (index * op_npn g + m))).

(** gradient_operator_default.cc:219-240, one offset of one pixel. *)
Definition grad_body (g : gop R) (p : pixels) (alpha : R) (nodal : gfield R) (id : Z) (base : list Z) (quad : gfield R) (off : nat * list Z) : res (gfield R) :=
  let! j := neighbour p base (snd off) in
  if points_fit g nodal quad && in_buffer quad id && in_buffer nodal j
  then Ok (with_mem quad (blk_add (fd_mem quad) (Z.to_nat id * px_stride quad) (px_stride quad)
                                  (grad_increment g alpha nodal (Z.to_nat j) (fst off))))
  else UB.

(** gradient_operator_default.cc:171-243.  [p] are the pixels of the
    quadrature point field's collection. *)
Definition apply_gradient_increment (g : gop R) (p : pixels) (nodal : gfield R) (alpha : R) (quad : gfield R) : res (gfield R) :=
  let! _ := fields_fit g nodal quad in
  let! offs := stencil (op_dim g) in
  let! pxs := px_enumerate p in
  loop (fun q px => loop (grad_body g p alpha nodal (fst px) (snd px)) q offs) quad pxs.

(** field_typed.cc [set_zero]: all coefficients. *)
Definition set_zero (f : gfield R) : gfield R := with_mem f (map (fun _ => zero o) (fd_mem f)).

(** A call: the output field after it, and how it ended. *)
Definition finish (before : gfield R) (r : res (gfield R)) : gfield R * res unit :=
  match r with Ok f => (f, Ok tt) | Err e => (before, Err e) | UB => (before, UB) end.

(** gradient_operator_default.cc:163-168 *)
Definition apply_gradient (g : gop R) (p : pixels) (nodal quad : gfield R) : gfield R * res unit :=
  finish (set_zero quad) (apply_gradient_increment g p nodal (one o) (set_zero quad)).

(** gradient_operator_default.cc:335: coefficient [k] of
    [alpha * grad_val * B_block], with [grad_val] from line 306. *)
Definition transpose_increment (g : gop R) (alpha w : R) (quad : gfield R) (c : nat) (id index k : nat) : R :=
  sum_below o (op_dim g * nb_pixel_quad_pts g) (fun m =>
    mul o (mul o alpha (mul o (nth (id * px_stride quad + m * c + k mod c) (fd_mem quad) (zero o)) w))
          (B_at g m (index * op_npn g + k / c))).

(** gradient_operator_default.cc:318-337, one offset of one pixel; a weight
    outside the vector is undefined behaviour, and so is [% 0]. *)
Definition transpose_body (g : gop R) (p : pixels) (alpha : R) (weights : list R) (quad : gfield R) (id : Z) (base : list Z) (nodal : gfield R) (off : nat * list Z) : res (gfield R) :=
  let! j := neighbour p base (snd off) in
  if points_fit g nodal quad && in_buffer quad id && in_buffer nodal j && negb (nb_pixel_quad_pts g =? 0)%nat
  then match nth_error weights (Z.to_nat id mod nb_pixel_quad_pts g)%nat with
       | Some w => Ok (with_mem nodal (blk_add (fd_mem nodal) (Z.to_nat j * px_stride nodal) (px_stride nodal)
                                               (transpose_increment g alpha w quad (fd_comps nodal) (Z.to_nat id) (fst off))))
       | None => UB
       end
  else UB.

(** gradient_operator_default.cc:257-339 *)
Definition apply_transpose_increment (g : gop R) (p : pixels) (quad : gfield R) (alpha : R) (nodal : gfield R) (weights : list R) : res (gfield R) :=
  let use := match weights with [] => repeat (one o) (nb_pixel_quad_pts g) | _ => weights end in
  let! _ := fields_fit g nodal quad in
  let! offs := stencil (op_dim g) in
  let! pxs := px_enumerate p in
  loop (fun n px => loop (transpose_body g p alpha use quad (fst px) (snd px)) n offs) nodal pxs.

(** gradient_operator_default.cc:246-254 *)
Definition apply_transpose (g : gop R) (p : pixels) (quad nodal : gfield R) (weights : list R) : gfield R * res unit :=
  finish (set_zero nodal) (apply_transpose_increment g p quad (one o) (set_zero nodal) weights).
End WithRing.
