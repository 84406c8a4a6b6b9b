(** Copying between stride layouts (raw_memory_operations.hh/.cc). *)
From Verif Require Import Base CIntModel GridModel.

(** Reading and writing a raw buffer: out-of-bounds access is undefined
    behaviour. *)
Definition rd {A} (buf : list A) (i : Z) : res A :=
  if i <? 0 then UB else match nth_error buf (Z.to_nat i) with Some v => Ok v | None => UB end.
Definition wr {A} (buf : list A) (i : Z) (v : A) : res (list A) :=
  if (i <? 0) || (Z.of_nat (length buf) <=? i) then UB else Ok (upd buf (Z.to_nat i) v).

(** raw_memory_operations.hh:55-58 [linear_index]; the unsigned 64-bit
    arithmetic is modelled by [Z], a negative total is out of bounds. *)
Definition linear_index (index strides : list Z) : Z :=
  fold_left (fun acc p => acc + fst p * snd p) (combine index strides) 0.

(** raw_memory_operations.hh:94-107 [iterator::operator++].  [carry_loop] is
    the first [for] loop; [prev] is the axis visited before. *)
Fixpoint carry_loop (shape : list Z) (prev : nat) (rest : list nat) (idx : list Z) : res (list Z) :=
  match rest with
  | [] => Ok idx
  | a :: r =>
      if zn shape prev =? 0 then UB
      else carry_loop shape a r (upd idx a (zn idx a + Z.quot (zn idx prev) (zn shape prev)))
  end.
(** The second [for] loop: reduce every entry. *)
Fixpoint reduce_loop (idx shape : list Z) : res (list Z) :=
  match idx, shape with
  | x :: idx', n :: shape' =>
      if n =? 0 then UB
      else let! r := reduce_loop idx' shape' in Ok (Z.rem x n :: r)
  | _, _ => Ok []
  end.
Definition odo_next (shape : list Z) (axes : list nat) (idx : list Z) : res (list Z) :=
  match axes with
  | [] => UB   (* axes_order[0] of an empty vector *)
  | a :: r =>
      let! u := carry_loop shape a r (upd idx a (zn idx a + 1)) in
      reduce_loop u shape
  end.

(** raw_memory_operations.hh:130-156 [strided_copy]; [axes] is the result of
    sorting the axes by output stride (raw_memory_operations.cc:48-50).  The
    loop runs until the counter reaches [prod(shape)].  Input and output are
    distinct buffers. *)
Fixpoint copy_loop {A} (k : nat) (shape : list Z) (axes : list nat) (is os idx : list Z)
    (inb outb : list A) : res (list A) :=
  match k with
  | O => Ok outb
  | S k' =>
      let! v := rd inb (linear_index idx is) in
      let! outb' := wr outb (linear_index idx os) v in
      let! idx' := odo_next shape axes idx in
      copy_loop k' shape axes is os idx' inb outb'
  end.
Definition strided_copy_with {A} (axes : list nat) (shape is os : list Z) (inb outb : list A)
  : res (list A) :=
  if negb (length shape =? length is)%nat then Err RuntimeError
  else if negb (length shape =? length os)%nat then Err RuntimeError
  else copy_loop (Z.to_nat (rawmem_prod shape)) shape axes is os
                 (repeat 0 (length shape)) inb outb.
Definition strided_copy {A} (shape is os : list Z) (inb outb : list A) : res (list A) :=
  strided_copy_with (compute_axes_order shape os) shape is os inb outb.
