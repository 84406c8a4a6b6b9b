(** Coordinates of runtime dimension (grid_common.hh:236-509 [DynCcoord],
    528-576 [operator+], [operator-]).  [M] is the template argument [MaxDim];
    entries are [Index_t], modelled by [Z] without overflow.  [Dim_t] is [int]. *)
From Verif Require Import Base.
Local Open Scope Z_scope.
Local Open Scope list_scope.

(** 504-508: [dim] and [long_array]; the latter always has [M] entries. *)
Record coord := mk_coord { d_dim : Z; d_arr : list Z }.

Section Coord.
Context (M : nat).

(** [long_array[i]]: a [std::array] without bounds check. *)
Definition arr_get (c : coord) (i : Z) : res Z :=
  if i <? 0 then UB else match nth_error (d_arr c) (Z.to_nat i) with Some v => Ok v | None => UB end.
Definition arr_set (c : coord) (i v : Z) : res coord :=
  if (i <? 0) || (Z.of_nat (length (d_arr c)) <=? i) then UB else Ok (mk_coord (d_dim c) (upd (d_arr c) (Z.to_nat i) v)).

(** 277 default constructor *)
Definition c_default : coord := mk_coord 0 (repeat 0 M).
(** 294-304 from an initialiser list; 340-350 from a vector *)
Definition c_of_list (l : list Z) : res coord :=
  if Z.of_nat (length l) >? Z.of_nat M then Err RuntimeError
  else Ok (mk_coord (Z.of_nat (length l)) (l ++ repeat 0 (M - length l))).
(** 318 from a dimension, which is not checked *)
Definition c_of_dim (d : Z) : coord := mk_coord d (repeat 0 M).
(** 320-325 from a [std::array]; the static assertion bounds its length *)
Definition c_of_array (l : list Z) : coord := mk_coord (Z.of_nat (length l)) (l ++ repeat 0 (M - length l)).
(** 362-369 assignment of a [std::array]; the entries behind it stay *)
Definition c_assign (c : coord) (l : list Z) : coord :=
  mk_coord (Z.of_nat (length l)) (l ++ skipn (length l) (d_arr c)).

(** Loops over [i] in [0, n). *)
Fixpoint c_loop {B} (f : Z -> B -> res B) (k : nat) (i : Z) (b : B) : res B :=
  match k with O => Ok b | S k' => let! b' := f i b in c_loop f k' (i + 1) b' end.
Definition c_for {B} (n : Z) (f : Z -> B -> res B) (b : B) : res B := c_loop f (Z.to_nat n) 0 b.

(** 385-391 comparison; the loop runs also if the dimensions differ *)
Definition c_eq (a b : coord) : res bool :=
  c_for (d_dim a) (fun i r => let! x := arr_get a i in let! y := arr_get b i in Ok (r && (x =? y)))
        (d_dim a =? d_dim b).
(** 450-467 [get], 444-447 conversion to a [std::array] of [n <= M] entries; the
    dimension is not looked at *)
Definition c_get (n : nat) (c : coord) : list Z := firstn n (d_arr c).
Fixpoint list_eqb (a b : list Z) : bool :=
  match a, b with
  | [], [] => true
  | x :: r, y :: s => (x =? y) && list_eqb r s
  | _, _ => false
  end.
(** 378-382 comparison with a [std::array] *)
Definition c_eq_array (a : coord) (l : list Z) : bool :=
  (d_dim a =? Z.of_nat (length l)) && list_eqb (c_get (length l) a) l.

(** 528-542 [operator+], 561-576 [operator-] *)
Definition c_zip (op : Z -> Z -> res Z) (a b : coord) : res coord :=
  if negb (d_dim a =? d_dim b) then Err RuntimeError
  else c_for (d_dim a) (fun i r => let! x := arr_get a i in let! y := arr_get b i in let! z := op x y in arr_set r i z)
             (c_of_dim (d_dim a)).
Definition c_add : coord -> coord -> res coord := c_zip (fun x y => Ok (x + y)).
Definition c_sub : coord -> coord -> res coord := c_zip (fun x y => Ok (x - y)).
(** 394-409 [operator/] with integers; division by zero is undefined *)
Definition c_div : coord -> coord -> res coord := c_zip (fun x y => if y =? 0 then UB else Ok (Z.quot x y)).

(** 484-492 [begin], [end]: the range [long_array .. long_array + dim]; forming
    or dereferencing a position outside the array is undefined *)
Definition c_range_ok (c : coord) : bool := (0 <=? d_dim c) && (d_dim c <=? Z.of_nat (length (d_arr c))).
(** 475-481 conversion to a vector; 624-641 [eigen] maps the same range *)
Definition c_to_vector (c : coord) : res (list Z) :=
  if c_range_ok c then Ok (firstn (Z.to_nat (d_dim c)) (d_arr c)) else UB.
(** 429-442 [operator%=], [operator%]: a zip of both ranges, which stops with the
    shorter (iterators.hh, see IterModel) *)
Definition c_mod (a b : coord) : res coord :=
  if negb (c_range_ok a && c_range_ok b) then UB
  else c_for (Z.min (d_dim a) (d_dim b))
         (fun i r => let! x := arr_get a i in let! y := arr_get b i in
                     if y =? 0 then UB else arr_set r i (Z.rem x y)) a.

(** 412-417 [operator[]] *)
Definition c_index (c : coord) (i : Z) : res Z := arr_get c i.
(** bind_py_common_mugrid.cc:89-99 [__getitem__] *)
Definition c_getitem (c : coord) (i : Z) : res Z :=
  if (i <? 0) || (d_dim c <=? i) then Err OutOfRange else arr_get c i.
(** 420-426 [push_back]; the comparison is unsigned *)
Definition c_push_back (c : coord) (v : Z) : res coord :=
  if Z.of_nat M <=? d_dim c mod 2 ^ 64 then Err RuntimeError
  else let! c' := arr_set c (d_dim c) v in Ok (mk_coord (d_dim c + 1) (d_arr c')).
(** 500-502 [back] *)
Definition c_back (c : coord) : res Z := arr_get c (d_dim c - 1).
End Coord.

(** grid_common.hh:716-724 [ipow]: the loop does not run for negative exponents. *)
Fixpoint ipow_loop (base : Z) (k : nat) (r : Z) : Z := match k with O => r | S k' => ipow_loop base k' (r * base) end.
Definition ipow (base exponent : Z) : Z := ipow_loop base (Z.to_nat exponent) 1.
