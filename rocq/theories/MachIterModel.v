(** Iteration over field maps and over the indices of sub-points in the types of the code
    (see MachModel.v for [Index_t] and [size_t]). *)
From Coq Require Import String.
From Verif Require Import Base CIntModel GridModel LayoutModel FieldModel RegistryModel MachModel.
Local Open Scope Z_scope.
Local Open Scope list_scope.

(** field.cc 284-302 [get_stride]: components times sub-points, in [Index_t]. *)
Definition m_get_stride (f : layout) (has : bool) (u : iter_unit) : res Z :=
  match u with
  | SubPt => Ok (l_nbc f)
  | Pixel => if has then ix (l_nbc f * l_nsub f) else Err FieldError
  end.
(** field_map.hh 362-420 [Iterator], 295-309 [operator[]]: the positions of the entries
    in the buffer.  The index is a [size_t], the stride is converted; the loop ends when
    the index is the size, which is a [size_t] as well.  [None]: more than [fuel] steps. *)
Fixpoint m_map_loop (fuel : nat) (index size stride : Z) : option (list Z) :=
  if index =? size then Some []
  else match fuel with
  | O => None
  | S k => option_map (cons (us (index * us stride))) (m_map_loop k (us (index + 1)) size stride)
  end.
Definition m_map_positions {A} (fuel : nat) (m : fmap) (f : field A) : option (list Z) :=
  m_map_loop fuel 0 (us (map_size m f)) (m_stride m).

(** field_collection.hh 1030-1036: the offset is an [Index_t] and the stride a
    [size_t], so that the remainder is one of [size_t]. *)
Definition m_index_next (stride : Z) (it : nat * Z) : res (nat * Z) :=
  let '(k, o) := it in
  if stride =? 0 then UB
  else let! o1 := ix (o + 1) in
       let o' := to_index (us o1 mod stride) in
       Ok (if o' =? 0 then S k else k, o').
(** field_collection.hh 1050-1052: the result is a [size_t] *)
Definition m_index_deref (pix : list Z) (stride : Z) (it : nat * Z) : res Z :=
  let '(k, o) := it in
  match nth_error pix k with Some p => Ok (us (us (us p * stride) + us o)) | None => UB end.
Fixpoint m_index_loop (fuel : nat) (pix : list Z) (stride : Z) (it : nat * Z) : res (list Z) :=
  if (fst it =? length pix)%nat && (snd it =? 0) then Ok []
  else match fuel with
  | O => UB
  | S n =>
      let! x := m_index_deref pix stride it in
      let! it' := m_index_next stride it in
      let! r := m_index_loop n pix stride it' in
      Ok (x :: r)
  end.
(** field_collection.cc 570-583: the number of sub-points as [size_t] *)
Definition m_index_iterate {A} (c : coll A) (tag : string) (fuel : nat) : res (list Z) :=
  let! s := index_stride c tag in m_index_loop fuel (c_index c) (us s) (O, 0).
