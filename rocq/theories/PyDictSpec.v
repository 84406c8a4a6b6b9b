(** What programs expect of option dictionaries in Python. *)
From Coq Require Import String.
From Verif Require Import Base DictModel PyCommModel PyDictModel.
Local Open Scope Z_scope.
Local Open Scope list_scope.

(** Values that come back as they are: integers of 32 bits, [bool] (as integers), floats
    and matrices of floats that can be written
    and have no negative strides. *)
Definition kept (x : pyobj) : Prop :=
  match x with
  | OInt n => - 2 ^ 31 <= n < 2 ^ 31
  | OBool _ | OFloat _ => True
  | OArray a => n_real a = true /\ n_writeable a = true /\ n_reversed a = false /\ length (n_dims a) = 2%nat
  | _ => False
  end.
(** What Python sees as equal. *)
Definition comes_back (x : pyobj) : pyobj := match x with OBool b => OInt (if b then 1 else 0) | _ => x end.
(** Dictionaries of such values, with strings as keys. *)
Fixpoint kept_dict (x : pyobj) : Prop :=
  match x with
  | ODict l => NoDup (map fst l) /\
      (fix all (l : list (option string * pyobj)) : Prop := match l with [] => True | (k, y) :: r => k <> None /\ kept_dict y /\ all r end) l
  | y => kept y
  end.
