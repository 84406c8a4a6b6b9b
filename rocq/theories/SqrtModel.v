(** Compile-time square root (eigen_tools.hh) and the dimension derived from it
    (T4_map_proxy.hh, eigen_tools.hh).

    The functions are evaluated by the compiler: overflow of [int] is rejected
    there, which the model records as [UB].  [None] means that the recursion has
    not ended within the given depth. *)
From Verif Require Import Base.
Local Open Scope Z_scope.

(** The result of an [int] operation (Dim_t is [int], grid_common.hh). *)
Definition as_int (z : Z) : res Z := if (- 2 ^ 31 <=? z) && (z <? 2 ^ 31) then Ok z else UB.

(** eigen_tools.hh 114-127 *)
Fixpoint ct_sqrt3 (fuel : nat) (n l r : Z) : option (res Z) :=
  if l =? r then Some (Ok r)
  else match fuel with
       | O => None
       | S f =>
           match as_int (r + l) with
           | Ok s => let mid := Z.quot s 2 in
                     match as_int (mid * mid) with
                     | Ok m => if n <=? m then ct_sqrt3 f n l mid else ct_sqrt3 f n (mid + 1) r
                     | Err e => Some (Err e)
                     | UB => Some UB
                     end
           | Err e => Some (Err e)
           | UB => Some UB
           end
       end.
(** eigen_tools.hh 129 *)
Definition ct_sqrt (fuel : nat) (n : Z) : option (res Z) := ct_sqrt3 fuel n 1 n.

(** T4_map_proxy.hh 68-84 [DimCounter], eigen_tools.hh 201-213 [tensor_4_dim]:
    a failing [static_assert] is an error.  [rows] and [cols] are the
    compile-time sizes, -1 for a dynamic size. *)
Definition dim_counter (fuel : nat) (rows cols : Z) : option (res Z) :=
  if rows =? -1 then Some (Err RuntimeError) else if negb (rows =? cols) then Some (Err RuntimeError)
  else match ct_sqrt fuel rows with
       | Some (Ok v) => Some (if v * v =? rows then Ok v else Err RuntimeError)
       | o => o
       end.
