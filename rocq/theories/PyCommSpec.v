(** What programs expect of collective operations in Python. *)
From Coq Require Export Permutation.
From Verif Require Import Base PyCommModel.
Local Open Scope Z_scope.
Local Open Scope list_scope.

(** The argument is this integer. *)
Definition denotes (x : pynum) (n : Z) : Prop := x = NInt n \/ exists b : bool, x = NBool b /\ n = if b then 1 else 0.
(** Whatever numbers are added first, the sum is a signed integer of so many bits. *)
Definition no_overflow (bits : Z) (ns : list Z) : Prop :=
  forall part rest, Permutation ns (part ++ rest) -> - 2 ^ (bits - 1) <= zsum part < 2 ^ (bits - 1).
(** The first [i + 1] members. *)
Definition up_to {A} (i : nat) (l : list A) : list A := firstn (S i) l.
(** Integers that Python hands over as [int], as [unsigned int] or as [Index_t]. *)
Definition int_range (n : Z) : Prop := - 2 ^ 31 <= n < 2 ^ 31.
Definition uint_range (n : Z) : Prop := 2 ^ 31 <= n < 2 ^ 32.
Definition wide_range (n : Z) : Prop := - 2 ^ 63 <= n < - 2 ^ 31 \/ 2 ^ 32 <= n < 2 ^ 63.
(** Arguments of one kind: broadcasting needs it. *)
Definition one_kind (args : list pynum) : Prop :=
  (exists xs, args = map NFloat xs) \/ (exists zs, args = map (fun z => NComplex (fst z) (snd z)) zs) \/
  exists ns, args = map NInt ns /\ (Forall int_range ns \/ Forall uint_range ns \/ Forall wide_range ns).
(** The extents that the C++ code sees: vectors are columns. *)
Definition rows_cols (dims : list nat) (r c : nat) : Prop := dims = [r] /\ c = 1%nat \/ dims = [r; c].
