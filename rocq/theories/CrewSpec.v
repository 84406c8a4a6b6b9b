(** Specification vocabulary for parallel programs that register collections. *)
From Coq Require Import String.
From Verif Require Import Base GridModel StridedModel LayoutModel NetCDFModel DimModel CrewModel.
Local Open Scope Z_scope.
Local Open Scope list_scope.

(** ** Collections of all processes *)

(** A collection that is spread over the processes: process [i] has its sub-domain,
    its fields, its pixels. *)
Inductive jop :=
| JGlobal (g : nat -> gcoll) (vars : nat -> list rvar)
| JLocal (lname : string) (ids : nat -> list Z) (vars : nat -> list rvar).
(** What process [i] registers. *)
Definition part (i : nat) (j : jop) : cop :=
  match j with
  | JGlobal g vars => CGlobal (g i) (vars i)
  | JLocal n ids vars => CLocal n (ids i) (vars i)
  end.

(** Fields of two processes that differ in the extents of the sub-domain only. *)
Definition alike_field (f g : nfield) : Prop :=
  nf_tag f = nf_tag g /\ nf_dom f = nf_dom g /\
  l_comp (nf_lay f) = l_comp (nf_lay g) /\ l_nbc (nf_lay f) = l_nbc (nf_lay g) /\ l_nsub (nf_lay f) = l_nsub (nf_lay g) /\
  l_order (nf_lay f) = l_order (nf_lay g) /\ length (l_pstr (nf_lay f)) = length (l_pstr (nf_lay g)).
Definition alike_var (r s : rvar) : Prop :=
  rv_name r = rv_name s /\ rv_hist r = rv_hist s /\ rv_subs r = rv_subs s /\ alike_field (rv_field r) (rv_field s).
(** No field has so many axes that their numbers do not fit into an [int]. *)
Definition few_axes (r : rvar) : Prop := Z.of_nat (length (l_comp (nf_lay (rv_field r)))) <= 2 ^ 31.
(** [n] processes, with sub-domains of [size i] pixels, have the same collection. *)
Definition decomposed (n : nat) (size : nat -> Z) (j : jop) : Prop :=
  match j with
  | JGlobal g vars =>
      (forall i, (i < n)%nat -> exists p, pixels_field (g i) = Ok p /\ l_npix (nf_lay p) = size i) /\
      forall i k, (i < n)%nat -> (k < n)%nat ->
        gc_dom (g i) = gc_dom (g k) /\ length (gc_sub (g i)) = length (gc_sub (g k)) /\ Forall2 alike_var (vars i) (vars k)
  | JLocal _ ids vars =>
      (forall i, (i < n)%nat ->
         Forall (fun id => 0 <= id < size i) (ids i) /\
         Forall (fun r => few_axes r /\ l_npix (nf_lay (rv_field r)) = Z.of_nat (length (ids i))) (vars i)) /\
      forall i k, (i < n)%nat -> (k < n)%nat -> Forall2 alike_var (vars i) (vars k)
  end.

(** ** The same registrations by a single process (DimModel.v) *)

(** It is told the number of pixels on all processes and the positions of the pixels
    of process [i]. *)
Definition numbers (n : nat) (ids : nat -> list Z) : list Z := map (fun k => Z.of_nat (length (ids k))) (seq 0 n).
Definition positions (n : nat) (size : nat -> Z) (writing : bool) (i : nat) (ids : nat -> list Z) : list Z :=
  if writing then match hidden_field (numbers n ids) i (size i) (ids i) with Ok l => l | _ => [] end
  else repeat (-1) (Z.to_nat (size i)).
Definition whole (n : nat) (size : nat -> Z) (writing : bool) (i : nat) (j : jop) : rop :=
  match j with
  | JGlobal g vars => RGlobal (g i) (vars i)
  | JLocal name ids vars => RLocal name (zsum (numbers n ids)) (positions n size writing i ids) (vars i)
  end.
(** It goes on after an exception. *)
Fixpoint serial (writing : bool) (ops : list rop) (s : sess) : sess * list (res unit) :=
  match ops with
  | [] => (s, [])
  | o :: ops' => let (s1, a) := (if writing then create_op o else open_op o) s in
                 let (s2, r) := serial writing ops' s1 in (s2, a :: r)
  end.

(** ** Programs *)

Definition start (n : nat) (writing : bool) (js : list jop) (x : proc) : list prog :=
  map (fun i => program writing (map (part i) js) [] x) (seq 0 n).
(** Whatever happens, the program gets to [Q] and is not stuck before. *)
Inductive always (Q : list prog -> Prop) : list prog -> Prop :=
| now c : Q c -> always Q c
| later c : (exists c', pstep c c') -> (forall c', pstep c c' -> always Q c') -> always Q c.
(** All [n] processes have finished, with these outcomes and this header; process
    [i] has an object with [P i]. *)
Definition finished (n : nat) (outs : list (res unit)) (f : nclib) (P : nat -> fobj -> Prop) (c : list prog) : Prop :=
  length c = n /\
  forall i, (i < n)%nat -> exists x, nth_error c i = Some (Fin x outs) /\ h_nc (p_head x) = f /\ P i (p_obj x).
