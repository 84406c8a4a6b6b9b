(** Specification vocabulary for ranges. *)
From Verif Require Import Base IterModel.
Local Open Scope Z_scope.

(** The loop stops and has visited exactly these elements, given enough steps. *)
Definition completes {A} (run : nat -> option (res A)) (x : A) : Prop := exists n, forall fuel, (n <= fuel)%nat -> run fuel = Some (Ok x).
(** The loop never stops. *)
Definition endless {A} (run : nat -> option (res A)) : Prop := forall fuel, run fuel = None.

(** The tuples of elements at equal positions, up to the shortest list. *)
Definition transposed {A} (ls : list (list A)) (ts : list (list A)) : Prop :=
  (forall l, In l ls -> (length ts <= length l)%nat) /\ (exists l, In l ls /\ length l = length ts) /\
  forall i t, nth_error ts i = Some t -> Forall2 (fun x l => nth_error l i = Some x) t ls.

(** The values of an arithmetic progression before its bound. *)
Definition progression (start stop step : Z) (l : list Z) : Prop :=
  (forall i v, nth_error l i = Some v -> v = start + Z.of_nat i * step) /\
  (forall i, (i < length l)%nat <-> if 0 <? step then start + Z.of_nat i * step < stop else stop < start + Z.of_nat i * step).
