(** Specification vocabulary for option dictionaries. *)
From Coq Require Import String.
From Verif Require Import Base RegistryModel DictModel.
Local Open Scope list_scope.

Section Spec.
Context {R M : Type}.
Implicit Types (s : dstate R M) (o : dop R M).

(** A state of a program that started without dictionaries. *)
Definition dreachable s : Prop := exists h, s = drun empty_state h.

(** What can be seen of one node: its value, or its keys. *)
Inductive obs : Type := OVal (v : dval R M) | OKeys (ks : list string).
Fixpoint walk s (a : nat) (path : list string) : res nat :=
  match path with [] => Ok a | k :: r => let! b := child s a k in walk s b r end.
(** What [v[k1][k2]...] holds. *)
Definition observe s (v : nat) (path : list string) : res obs :=
  let! a := addr s v in
  let! b := walk s a path in
  let! n := node_at s b in
  Ok (match n with NVal x => OVal x | NDict m => OKeys (keys m) end).
(** The nodes met on the way. *)
Fixpoint visited s (a : nat) (path : list string) : list nat :=
  a :: match path with [] => [] | k :: r => match child s a k with Ok b => visited s b r | _ => [] end end.

(** The operation gives variable [v] a new meaning. *)
Definition rebinds (v : nat) o : bool :=
  match o with
  | DNew w | DNewWith w _ _ | DCopy w _ | DIndex w _ _ => Nat.eqb v w
  | DMove w x => Nat.eqb v w || Nat.eqb v x
  | _ => false
  end.
(** The variables an operation reads. *)
Definition reads o : list nat :=
  match o with
  | DNew _ | DNewWith _ _ _ => []
  | DCopy _ w | DMove _ w | DIndex _ w _ => [w]
  | DAdd v _ _ | DAssign v _ | DAssignAt v _ _ => [v]
  | DAddDict v _ w | DAssignOf v w | DAssignDictAt v _ w => [v; w]
  end.
(** The variable points to a node. *)
Definition usable s (v : nat) : Prop := exists a, d_vars s v = At a.

(** Python dictionaries that convert: string keys, each once, and supported
    values throughout, integers of 32 bits. *)
Fixpoint convertible (x : py R M) : Prop :=
  match x with
  | PDict l => NoDup (map fst l) /\
      (fix all (l : list (option string * py R M)) : Prop :=
         match l with [] => True | (k, y) :: r => k <> None /\ convertible y /\ all r end) l
  | PInt i => (- 2 ^ 31 <= i < 2 ^ 31)%Z
  | POther => False
  | _ => True
  end.
(** A dictionary of Python: at all levels every key is there once. *)
Fixpoint once (x : py R M) : Prop :=
  match x with
  | PDict l => NoDup (map fst l) /\
      (fix all (l : list (option string * py R M)) : Prop := match l with [] => True | (k, y) :: r => once y /\ all r end) l
  | _ => True
  end.
(** Node [a] holds a copy of a Python value. *)
Fixpoint holds_copy s (x : py R M) (a : nat) : Prop :=
  match x with
  | PInt i => node_at s a = Ok (NVal (VInt i))
  | PReal r => node_at s a = Ok (NVal (VReal r))
  | PMat m => node_at s a = Ok (NVal (VMat m))
  | PDict l => exists m, node_at s a = Ok (NDict m) /\
      (forall k, lookup k m <> None <-> In (Some k) (map fst l)) /\
      (fix all (l : list (option string * py R M)) : Prop :=
         match l with
         | [] => True
         | (Some k, y) :: r => (exists b, lookup k m = Some b /\ holds_copy s y b) /\ all r
         | (None, _) :: r => False
         end) l
  | POther => False
  end.
End Spec.
