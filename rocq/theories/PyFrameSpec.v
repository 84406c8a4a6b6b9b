(** What the theorems on frames in Python speak of. *)
From Verif Require Import Base PyCommModel PyArgModel PyFrameModel.
Local Open Scope Z_scope.
Local Open Scope list_scope.

(** The results of the calls for which [f] holds, in order. *)
Fixpoint results (f : pfop -> bool) (h : list pfop) (outs : list pfout) : list pfout :=
  match h, outs with
  | o :: r, x :: t => if f o then x :: results f r t else results f r t
  | _, _ => []
  end.
Definition next_of (i : nat) (o : pfop) : bool := match o with PNext j => (i =? j)%nat | _ => false end.
Definition previous_of (i : nat) (o : pfop) : bool := match o with PPrevious j => (i =? j)%nat | _ => false end.
Definition count (f : pfop -> bool) (h : list pfop) : nat := length (filter f h).
Definition appending (o : pfop) : bool := match o with PAppend => true | _ => false end.
(** Numbers [0], [1], ... below [n], then the end. *)
Definition forwards (n : Z) (k : nat) : pfout := if Z.of_nat k <? n then OFrame (Z.of_nat k) else OStop.
(** Numbers [n - 1], [n - 2], ... down to [0], then the end. *)
Definition backwards (n : Z) (k : nat) : pfout := if Z.of_nat k <? n then OFrame (n - 1 - Z.of_nat k) else OStop.
