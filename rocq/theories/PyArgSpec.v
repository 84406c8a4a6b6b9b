(** What programs expect of coordinates and shapes in Python. *)
From Verif Require Import Base PyCommModel PyArgModel.
Local Open Scope Z_scope.
Local Open Scope list_scope.

(** Integers of 64 bits, of Python or numpy *)
Definition index64 (n : Z) : Prop := - 2 ^ 63 <= n < 2 ^ 63.
Definition int_seq (k : seqkind) (l : list Z) : pyarg := ASeq k (map NInt l).
Definition int_arg (n : Z) : pyarg := ANum (NInt n).
(** Numbers that are not integers *)
Definition not_int (x : pynum) : Prop := match x with NFloat _ | NComplex _ _ => True | NInt n => ~ index64 n | _ => False end.
