(** Names that the NetCDF library accepts. *)
From Coq Require Import String Ascii.
From Verif Require Import Base.
Local Open Scope list_scope.

Definition between (lo hi : string) (a : ascii) : Prop :=
  exists x y, lo = String x "" /\ hi = String y "" /\ (nat_of_ascii x <= nat_of_ascii a <= nat_of_ascii y)%nat.
Definition beyond_ascii (a : ascii) : Prop := (128 <= nat_of_ascii a)%nat.
(** A letter, a digit, an underscore or a byte beyond ASCII comes first; then any
    printable characters but slashes; no space at the end; at most 256 bytes. *)
Definition acceptable (s : string) : Prop :=
  (exists a r, s = String a r /\
     (between "a" "z" a \/ between "A" "Z" a \/ between "0" "9" a \/ between "_" "_" a \/ beyond_ascii a) /\
     Forall (fun b => (between " " "~" b \/ beyond_ascii b) /\ ~ between "/" "/" b) (list_ascii_of_string r)) /\
  (forall p, s <> (p ++ " ")%string) /\
  (String.length s <= 256)%nat.
