(** Zipped, enumerated and arithmetic ranges (iterators.hh).

    Integers are unbounded, so overflow of a range bound is not modelled here (see MachRangeModel.v).  A
    range-based for loop is run for a given number of steps at most; [None]
    means that it did not stop by then. *)
From Verif Require Import Base.
Local Open Scope Z_scope.
Local Open Scope list_scope.

(** An iterable: begin and end positions, the increment, and dereferencing.
    Containers count positions; arithmetic ranges use their value as position
    (232-270 [ArangeIterator]). *)
Record range (A : Type) := mk_range { r_begin : Z; r_end : Z; r_step : Z; r_get : Z -> res A }.
Arguments mk_range {A} _ _ _ _.
Arguments r_begin {A} _.
Arguments r_end {A} _.
Arguments r_step {A} _.
Arguments r_get {A} _ _.

Definition container {A} (l : list A) : range A :=
  mk_range 0 (Z.of_nat (length l)) 1
           (fun i => if i <? 0 then UB else match nth_error l (Z.to_nat i) with Some x => Ok x | None => UB end).

(** 276-308 [ArangeContainer]: the stop value is rounded to a multiple of the
    step; a step of zero divides by zero. *)
Definition arange_stop (start stop step : Z) : Z :=
  if Z.rem (stop - start) step =? 0 then stop else start + (1 + Z.quot (stop - start) step) * step.
Definition arange (start stop step : Z) : res (range Z) :=
  if step =? 0 then UB else Ok (mk_range start (arange_stop start stop step) step (fun v => Ok v)).
Definition arange_size (start stop step : Z) : res Z :=
  if step =? 0 then UB else Ok (Z.quot (arange_stop start stop step - start) step).
(** 292-296 [operator[]] (the assertion is not part of release builds; see [IterDebugModel]). *)
Definition arange_at (start stop step : Z) (i : nat) : res Z :=
  if step =? 0 then UB else Ok (start + Z.of_nat i * step).

(** 45-68 [Foreach::not_equal], 95-99: all pairs differ. *)
Fixpoint all_differ {A} (rs : list (range A)) (pos : list Z) : bool :=
  match rs, pos with
  | r :: rs', p :: pos' => negb (p =? r_end r) && all_differ rs' pos'
  | _, _ => true
  end.
(** 134-143 dereference and increment of all iterators. *)
Fixpoint deref_all {A} (rs : list (range A)) (pos : list Z) : res (list A) :=
  match rs, pos with
  | r :: rs', p :: pos' => let! x := r_get r p in let! t := deref_all rs' pos' in Ok (x :: t)
  | _, _ => Ok []
  end.
Definition next_all {A} (rs : list (range A)) (pos : list Z) : list Z :=
  map (fun q => snd q + r_step (fst q)) (combine rs pos).
(** [for (auto && t : zip(...))] (173-213 [ZipContainer]). *)
Fixpoint zip_loop {A} (fuel : nat) (rs : list (range A)) (pos : list Z) : option (res (list (list A))) :=
  if all_differ rs pos then
    match fuel with
    | O => None
    | S n =>
        match deref_all rs pos with
        | Ok t => match zip_loop n rs (next_all rs pos) with
                  | Some (Ok r) => Some (Ok (t :: r))
                  | o => o
                  end
        | Err e => Some (Err e)
        | UB => Some UB
        end
    end
  else Some (Ok []).
Definition zip {A} (fuel : nat) (rs : list (range A)) : option (res (list (list A))) := zip_loop fuel rs (map r_begin rs).
(** A loop over a single range. *)
Definition loop {A} (fuel : nat) (r : range A) : option (res (list A)) :=
  match zip fuel [r] with Some (Ok l) => Some (Ok (concat l)) | Some (Err e) => Some (Err e) | Some UB => Some UB | None => None end.

(** Elements of an enumeration: counters and elements. *)
Definition counter {B} (r : range Z) : range (Z + B) := mk_range (r_begin r) (r_end r) (r_step r) (fun p => let! v := r_get r p in Ok (inl v)).
Definition element {B} (r : range B) : range (Z + B) := mk_range (r_begin r) (r_end r) (r_step r) (fun p => let! v := r_get r p in Ok (inr v)).
(** 347-353 [enumerate]; 372-379 [enum_zip] of two containers. *)
Definition enumerate {B} (fuel : nat) (c : list B) (start : Z) : option (res (list (list (Z + B)))) :=
  match arange start (Z.of_nat (length c)) 1 with
  | Ok r => zip fuel [counter r; element (container c)]
  | Err e => Some (Err e)
  | UB => Some UB
  end.
Definition enum_zip {B} (fuel : nat) (c d : list B) (start : Z) : option (res (list (list (Z + B)))) :=
  match arange start (Z.of_nat (length c)) 1 with
  | Ok r => zip fuel [counter r; element (container c); element (container d)]
  | Err e => Some (Err e)
  | UB => Some UB
  end.
