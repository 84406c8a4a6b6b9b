(** Properties of zipped, enumerated and arithmetic ranges. *)
From Verif Require Import Base IterModel IterSpec IterProofs.
Local Open Scope Z_scope.
Local Open Scope list_scope.

(** ** C40 *)
Theorem C40_zip {A} (ls : list (list A)) : ls <> [] -> exists ts, completes (fun fuel => zip fuel (map container ls)) ts /\ transposed ls ts.
Proof. exact (zip_containers ls). Qed.
Print Assumptions C40_zip.
Theorem C40_enumerate {B} (c : list B) : exists ts, completes (fun fuel => enumerate fuel c 0) ts /\ length ts = length c /\
  forall i x, nth_error c i = Some x -> nth_error ts i = Some [inl (Z.of_nat i); inr x].
Proof. exact (enumerate_pairs c). Qed.
Print Assumptions C40_enumerate.
Theorem C40_enum_zip {B} (c d : list B) : exists ts, completes (fun fuel => enum_zip fuel c d 0) ts /\ length ts = Nat.min (length c) (length d) /\
  forall i x y, nth_error c i = Some x -> nth_error d i = Some y -> nth_error ts i = Some [inl (Z.of_nat i); inr x; inr y].
Proof. exact (enum_zip_pairs c d). Qed.
Print Assumptions C40_enum_zip.
(** With the bound on the side of the step, the loop stops after exactly the
    values before the bound. *)
Theorem C40_arange start stop step : step <> 0 -> (if 0 <? step then start <= stop else stop <= start) ->
  exists r l, arange start stop step = Ok r /\ completes (fun fuel => loop fuel r) l /\ progression start stop step l.
Proof. exact (arange_progression start stop step). Qed.
Print Assumptions C40_arange.
Theorem C40_arange_access start stop step l : step <> 0 -> (if 0 <? step then start <= stop else stop <= start) -> progression start stop step l ->
  arange_size start stop step = Ok (Z.of_nat (length l)) /\ forall i v, nth_error l i = Some v -> arange_at start stop step i = Ok v.
Proof. exact (arange_access start stop step l). Qed.
Print Assumptions C40_arange_access.
(** The specification admits one list only. *)
Theorem C40_progression_unique start stop step l l' : progression start stop step l -> progression start stop step l' -> l = l'.
Proof. exact (progression_unique start stop step l l'). Qed.
Print Assumptions C40_progression_unique.
Example C40_case : zip 9 (map container [[1; 2; 3]; [4; 5]; [6; 7; 8; 9]]) = Some (Ok [[1; 4; 6]; [2; 5; 7]]) /\
  zip 1 (map container [[1; 2; 3]; [4; 5]]) = None /\ enumerate 9 [5; 6] 0 = Some (Ok [[inl 0; inr 5]; [inl 1; inr 6]]) /\
  enum_zip 9 [5; 6] [7] 0 = Some (Ok [[inl 0; inr 5; inr 7]]) /\
  (exists r, arange 2 9 3 = Ok r /\ loop 9 r = Some (Ok [2; 5; 8])) /\ arange_size 2 9 3 = Ok 3 /\ arange_at 2 9 3 2 = Ok 8 /\
  (exists r, arange 5 0 (-2) = Ok r /\ loop 9 r = Some (Ok [5; 3; 1])) /\ (exists r, arange 4 4 3 = Ok r /\ loop 9 r = Some (Ok [])).
Proof. repeat split; try reflexivity; eexists; split; reflexivity. Qed.

(** ** C64: enumeration with an offset *)
(** With a start up to the length the last elements are dropped. *)
Theorem C64_offset_refuted {B} (c : list B) k : 0 < k <= Z.of_nat (length c) -> exists ts, completes (fun fuel => enumerate fuel c k) ts /\
  Z.of_nat (length ts) = Z.of_nat (length c) - k /\ forall i x, (i < length ts)%nat -> nth_error c i = Some x -> nth_error ts i = Some [inl (k + Z.of_nat i); inr x].
Proof.
  intros Hk. destruct (enumerate_starting c k ltac:(lia)) as (ts & C & L & P). destruct (Z.leb_spec k (Z.of_nat (length c))); [|lia]. exists ts. split; [exact C|]. split; [lia|]. now rewrite L.
Qed.
Print Assumptions C64_offset_refuted.
(** Beyond the length, and for zero, all elements are visited with their
    shifted positions. *)
Theorem C64_offset_partial {B} (c : list B) k : k = 0 \/ Z.of_nat (length c) < k -> exists ts, completes (fun fuel => enumerate fuel c k) ts /\
  length ts = length c /\ forall i x, nth_error c i = Some x -> nth_error ts i = Some [inl (k + Z.of_nat i); inr x].
Proof.
  intros Hk. destruct (enumerate_starting c k ltac:(lia)) as (ts & C & L & P). exists ts. split; [exact C|].
  assert (M : (if k <=? Z.of_nat (length c) then (length c - Z.to_nat k)%nat else length c) = length c) by (destruct (Z.leb_spec k (Z.of_nat (length c))); lia).
  rewrite M in L, P. split; [exact L|]. intros i x Hx. apply P; [|exact Hx]. apply nth_error_Some. congruence.
Qed.
Print Assumptions C64_offset_partial.
Example C64_case : enumerate 9 [5; 6; 7] 1 = Some (Ok [[inl 1; inr 5]; [inl 2; inr 6]]) /\ enumerate 9 [5; 6; 7] 3 = Some (Ok []) /\
  enumerate 9 [5; 6; 7] 4 = Some (Ok [[inl 4; inr 5]; [inl 5; inr 6]; [inl 6; inr 7]]).
Proof. repeat split; reflexivity. Qed.

(** ** C65: bound on the other side of the start *)
(** Python's range is empty; here the loop may visit the start, stop at once, or
    never stop. *)
Theorem C65_arange_refuted start stop step : step <> 0 -> (if 0 <? step then stop < start else start < stop) -> exists r, arange start stop step = Ok r /\
  let d := Z.abs (stop - start) in let s := Z.abs step in
  (d < s -> completes (fun fuel => loop fuel r) [start]) /\ (s < d < 2 * s -> completes (fun fuel => loop fuel r) []) /\
  (d = s \/ 2 * s <= d -> endless (fun fuel => loop fuel r)).
Proof. exact (arange_wrong start stop step). Qed.
Print Assumptions C65_arange_refuted.
Theorem C65_zero_step start stop : arange start stop 0 = UB.
Proof. reflexivity. Qed.
Print Assumptions C65_zero_step.
Example C65_case : (exists r, arange 3 0 1 = Ok r /\ loop 9 r = None) /\ (exists r, arange 3 2 5 = Ok r /\ loop 9 r = Some (Ok [3])) /\
  (exists r, arange 3 (-3) 5 = Ok r /\ loop 9 r = Some (Ok [])) /\ (exists r, arange 0 4 (-1) = Ok r /\ loop 9 r = None).
Proof. repeat split; eexists; split; reflexivity. Qed.
