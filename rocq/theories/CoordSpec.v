(** What a coordinate of runtime dimension stands for: a list of entries. *)
From Verif Require Import Base CoordModel.
Local Open Scope Z_scope.
Local Open Scope list_scope.

(** [c], with room for [M] entries, holds the list [l]. *)
Definition holds (M : nat) (c : coord) (l : list Z) : Prop :=
  length (d_arr c) = M /\ d_dim c = Z.of_nat (length l) /\ firstn (length l) (d_arr c) = l.

(** Entry by entry; [None] if the lengths differ. *)
Fixpoint pointwise (op : Z -> Z -> Z) (a b : list Z) : option (list Z) :=
  match a, b with
  | [], [] => Some []
  | x :: r, y :: s => match pointwise op r s with Some t => Some (op x y :: t) | None => None end
  | _, _ => None
  end.
