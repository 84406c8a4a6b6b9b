(** Subscripts of arithmetic ranges in builds with assertions (iterators.hh 292-296,
    [ArangeContainer::operator[]]). *)
From Verif Require Import Base IterModel.
Local Open Scope Z_scope.

(** 292-296: [None] is a failed assertion, which ends the program.  The value is computed
    in [size_t] and converted back, which is exact for values within the type; values
    outside of it are not modelled.  The stop value is the rounded one (281-286); a step
    of zero was undefined when the range was made. *)
Definition arange_checked (start stop step : Z) (i : nat) : option (res Z) :=
  match arange_at start stop step i with
  | Ok v => if v <? arange_stop start stop step then Some (Ok v) else None
  | r => Some r
  end.
