(** Fixed-width C++ integer conversions and the 32-bit element counts. *)
From Verif Require Import Base.

(** Conversion to [Dim_t] / [int] (grid_common.hh:66, 32 bits): values are
    taken modulo 2^32 into [-2^31, 2^31), as GCC and Clang do for
    out-of-range conversions. *)
Definition wrap32 (z : Z) : Z := (z + 2 ^ 31) mod 2 ^ 32 - 2 ^ 31.

(** grid_common.hh:187-192 [get_nb_from_shape] and
    raw_memory_operations.hh:49-52 [prod]: [std::accumulate(begin, end, 1,
    std::multiplies<Index_t>())].  The accumulator has the type of the literal
    [1], i.e. [int], so every partial product is converted back to 32 bits. *)
Definition accumulate_mul (shape : list Z) : Z :=
  fold_left (fun acc n => wrap32 (acc * n)) shape 1.

Definition get_nb_from_shape (shape : list Z) : Z := accumulate_mul shape.
(** [prod] converts the 32-bit accumulator to the unsigned 64-bit [size_t]. *)
Definition rawmem_prod (shape : list Z) : Z := (accumulate_mul shape) mod 2 ^ 64.

(** ccoord_operations.hh:118-122 [modulo]: [(b + (a % b)) % b]; C++ [%] is
    the truncated remainder and is undefined for [b = 0]. *)
Definition modulo (a b : Z) : res Z :=
  if b =? 0 then UB else Ok (Z.rem (b + Z.rem a b) b).
