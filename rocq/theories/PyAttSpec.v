(** Specification vocabulary for attributes in Python programs. *)
From Coq Require Import String.
From Verif Require Import Base AttModel AttSpec PyAttModel.
Local Open Scope Z_scope.
Local Open Scope list_scope.

(** *** Python values *)
(** The mantissa and the power of two of a float (IEEE 754 binary64), none for
    infinities and NaN. *)
Definition float_value (bits : Z) : option (Z * Z) :=
  let x := bits mod 2 ^ 63 in
  let sign := if bits <? 2 ^ 63 then 1 else -1 in
  let e := x / 2 ^ 52 in
  let m := x mod 2 ^ 52 in
  if e =? 2047 then None
  else if e =? 0 then Some (sign * m, -1074)
  else Some (sign * (2 ^ 52 + m), e - 1075).
(** A number, as a multiple of the smallest positive float. *)
Definition number (e : pyelem) : option Z :=
  match e with
  | PInt n => Some (n * 2 ^ 1074)
  | PBool b => Some (Z.b2z b * 2 ^ 1074)
  | PFloat x => match float_value x with Some (m, k) => Some (m * 2 ^ (k + 1074)) | None => None end
  | POther => None
  end.
(** Equality of elements in Python, where a NaN or infinity equals itself. *)
Definition same_elem (a b : pyelem) : Prop := a = b \/ exists x, number a = Some x /\ number b = Some x.
Definition same (a b : pyval) : Prop :=
  match a, b with
  | PStr u, PStr v => u = v
  | PList l, PList r => Forall2 same_elem l r
  | _, _ => False
  end.
(** Does a float have this value? *)
Definition representable (n : Z) : Prop := exists x m k, 0 <= x < 2 ^ 64 /\ float_value x = Some (m, k) /\ n * 2 ^ 1074 = m * 2 ^ (k + 1074).

(** Well-formed values: strings are encoded in UTF-8, floats have 64 bits. *)
Definition wf (v : pyval) : Prop :=
  match v with
  | PStr u => utf8 u = true
  | PList l => Forall (fun e => match e with PFloat x => 0 <= x < 2 ^ 64 | _ => True end) l
  end.
(** The integer an element stands for. *)
Definition integer (e : pyelem) : option Z := match e with PInt n => Some n | PBool b => Some (Z.b2z b) | _ => None end.
Definition ints_in (lo hi : Z) (l : list pyelem) : Prop := Forall (fun e => exists n, integer e = Some n /\ lo <= n <= hi) l.
Definition numbers (l : list pyelem) : Prop := Forall (fun e => e <> POther) l.
(** The integers of a list are floats. *)
Definition exact (l : list pyelem) : Prop := Forall (fun e => forall n, integer e = Some n -> representable n) l.
(** Values that no conversion changes: strings, integers of 64 bits, and lists
    with floats in which every integer has the value of a float. *)
Definition faithful (v : pyval) : Prop :=
  wf v /\ match v with PStr _ => True | PList l => ints_in (- 2 ^ 63) (2 ^ 63 - 1) l \/ numbers l /\ exact l end.

(** The types of attributes Python values are stored as. *)
Definition stored_as (v : pyval) (t : nctype) : Prop :=
  match v with
  | PStr _ => t = TChar
  | PList l =>
      match t with
      | TInt => ints_in (- 2 ^ 31) (2 ^ 31 - 1) l
      | TUInt => ints_in 0 (2 ^ 32 - 1) l /\ ~ ints_in (- 2 ^ 31) (2 ^ 31 - 1) l
      | TInt64 => ints_in (- 2 ^ 63) (2 ^ 63 - 1) l /\ ~ ints_in (- 2 ^ 31) (2 ^ 31 - 1) l /\ ~ ints_in 0 (2 ^ 32 - 1) l
      | TDouble => numbers l /\ ~ ints_in (- 2 ^ 63) (2 ^ 63 - 1) l
      | _ => False
      end
  end.
(** Characters or elements. *)
Definition size (v : pyval) : nat := match v with PStr u => List.length u | PList l => List.length l end.

(** *** Programs *)
(** What reading an attribute by name gives. *)
Definition pydict := string -> pyout pyval.
Definition pyshown (s : st) : pydict := fun n => py_read_global_attribute n s.
Definition pystored (c : content) : pydict :=
  fun n => match find_att n (c_gatts c) with
           | Some a => cast (mk_matt n (a_type a) 0 (a_val a) true true)
           | None => PyExn FileIOError
           end.
Definition pyset (d : pydict) (n : string) (x : pyout pyval) : pydict := fun k => if String.eqb k n then x else d k.
Definition pyeffect (o : pyop) (d : pydict) : pydict :=
  match o with
  | PyWrite n v => pyset d n (PyOk v)
  | PyUpdate old new v => pyset (pyset d old (PyExn FileIOError)) new (PyOk v)
  | _ => d
  end.
(** Equal results of two reads. *)
Definition agrees (a b : pyout pyval) : Prop :=
  match a, b with PyOk v, PyOk w => same v w | _, _ => a = b end.

(** An update keeps the name, or changes it to a legal one that no attribute has;
    the values are faithful. *)
Definition pytidy (s : st) (o : pyop) : Prop :=
  match o with
  | PyUpdate old new _ => new = old \/ legal_name new = true /\ ~ In new (read_global_attribute_names s)
  | _ => True
  end.
Definition pyop_ok (P : pyval -> Prop) (o : pyop) : Prop := match o with PyWrite _ v | PyUpdate _ _ v => P v | _ => True end.
Inductive pyruns (P : pyval -> Prop) : st -> list (pyop * pyout unit) -> st -> Prop :=
| pyruns_nil s : pyruns P s [] s
| pyruns_cons s o s1 r h s2 : pyop_ok P o -> pytidy s o -> pystep o s = (s1, r) -> pyruns P s1 h s2 -> pyruns P s ((o, r) :: h) s2.
(** The dictionary after a run: only what succeeded counts. *)
Fixpoint pyafter (h : list (pyop * pyout unit)) (d : pydict) : pydict :=
  match h with
  | [] => d
  | (o, PyOk _) :: t => pyafter t (pyeffect o d)
  | _ :: t => pyafter t d
  end.
