(** Arithmetic ranges of [Index_t] in the types of the code (see MachModel.v for
    [Index_t] and [size_t]). *)
From Verif Require Import Base CIntModel MachModel.
Local Open Scope Z_scope.
Local Open Scope list_scope.

(** Division of [Index_t]: undefined by zero, and if the quotient does not fit; then the
    remainder is undefined as well. *)
Definition ix_div (a b : Z) : res Z := if b =? 0 then UB else ix (Z.quot a b).
Definition ix_rem (a b : Z) : res Z := let! _ := ix_div a b in Ok (Z.rem a b).
(** iterators.hh 281-286 [ArangeContainer]: the stop value *)
Definition m_arange_stop (start stop step : Z) : res Z :=
  let! d := ix (stop - start) in
  let! r := ix_rem d step in
  if r =? 0 then Ok stop
  else let! q := ix_div d step in
       let! n := ix (1 + q) in
       let! p := ix (n * step) in
       ix (start + p).
(** iterators.hh 299 [size] *)
Definition m_arange_size (start stop step : Z) : res Z :=
  let! e := m_arange_stop start stop step in
  let! d := ix (e - start) in
  ix_div d step.
(** iterators.hh 292-296 [operator[]] without assertion: the index is a [size_t], so the
    sum is computed in [size_t] and converted back. *)
Definition m_arange_at (start step : Z) (i : nat) : Z := to_index (us (us start + us (us (Z.of_nat i) * us step))).
(** iterators.hh 250-264 and 302-304: the loop over a range; [None]: more than [fuel]
    steps. *)
Fixpoint m_arange_loop (fuel : nat) (value e step : Z) : option (res (list Z)) :=
  if value =? e then Some (Ok [])
  else match fuel with
  | O => None
  | S k => match ix (value + step) with
           | Ok v => match m_arange_loop k v e step with Some (Ok r) => Some (Ok (value :: r)) | o => o end
           | Err x => Some (Err x)
           | UB => Some UB
           end
  end.
Definition m_arange (fuel : nat) (start stop step : Z) : option (res (list Z)) :=
  match m_arange_stop start stop step with
  | Ok e => m_arange_loop fuel start e step
  | Err x => Some (Err x)
  | UB => Some UB
  end.
