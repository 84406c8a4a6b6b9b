(** What the theorems on lifetimes of Python objects speak of. *)
From Verif Require Import Base PyLifeModel.
Local Open Scope nat_scope.
Local Open Scope list_scope.

(** The object a call is made for. *)
Definition object_of (o : call) : option nat :=
  match o with
  | NewColl | NewFile | Del _ => None
  | GetPart h _ | Owner h | Array h | Prop_ h | MapOf h | Slice h | Copy h | Iterate h | GetFrame h
  | Register h _ | Transfer h | Use h => Some h
  end.

(** Calls whose results keep alive what they need: constructors of collections, parts
    of collections, [collection], [array], buffers and copies. *)
Definition keeping (o : call) : Prop :=
  match o with NewColl | GetPart _ _ | Owner _ | Array _ | Copy _ => True | _ => False end.

(** The objects that a program got through such calls, or as slices of such arrays. *)
Inductive keeps (l : list call) : nat -> Prop :=
| keeps_call i o h :
    nth_error l i = Some o -> keeping o -> nth_error (outcomes start l) i = Some (Obj h) -> keeps l h
| keeps_slice i a h :
    nth_error l i = Some (Slice a) -> keeps l a -> nth_error (outcomes start l) i = Some (Obj h) -> keeps l h.

(** Calls whose results keep nothing alive. *)
Definition borrowing (o : call) : Prop :=
  match o with Prop_ _ | MapOf _ | Iterate _ | GetFrame _ => True | _ => False end.

(** At every time, the program has a variable for each of its collections and files. *)
Definition owner (k : kind) : Prop := k = KColl \/ k = KFile.
Definition has_owners (s : state) : Prop :=
  forall h o, nth_error (s_objs s) h = Some o -> owner (po_kind o) -> In h (s_vars s).
Definition keeps_owners (l : list call) : Prop :=
  forall l1 l2, l = l1 ++ l2 -> has_owners (run start l1).

(** The program gives up all variables it has in a state, or all but one object. *)
Definition give_up (s : state) : list call := map Del (s_vars s).
Definition give_up_but (h : nat) (s : state) : list call :=
  map Del (filter (fun x => negb (Nat.eqb x h)) (s_vars s)).
