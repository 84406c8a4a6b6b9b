(** What it means that a file holds a value that is not a number. *)
From Coq Require Import String.
From Verif Require Import Base AttModel AttSpec.
Local Open Scope string_scope.
Local Open Scope Z_scope.
Local Open Scope list_scope.

(** Eight bytes, least significant first, as an integer; IEEE 754: without the
    sign, a NaN lies above infinity. *)
Definition le64 (b : bytes) : Z := fold_right (fun x acc => x + 256 * acc) 0 b.
Definition not_a_number (b : bytes) : Prop := 2047 * 2 ^ 52 < le64 b mod 2 ^ 63.
Definition holds_nan (a : att) : Prop :=
  a_type a = TDouble /\ exists k, (8 * k < List.length (a_val a))%nat /\ not_a_number (firstn 8 (skipn (8 * k) (a_val a))).
(** The attributes of a variable in a file: its unit and at most nine others, of the
    types the library knows, with names shorter than its buffer. *)
Definition described (v : var) (u : bytes) (extra : list att) : Prop :=
  v_atts v = mk_att "unit" TChar u :: extra /\ NoDup (map a_name (v_atts v)) /\ (List.length extra <= 9)%nat /\
  Forall (fun a => (String.length (a_name a) < 256)%nat /\ value_ok (a_type a) (a_val a) /\ Forall (fun x => 0 <= x < 256) (a_val a)) extra.
(** A variable to be registered: its place in the file, unit and other attributes. *)
Record item := mk_item { it_var : var; it_at : nat; it_unit : bytes; it_extra : list att }.
Definition in_file (c : content) (d : item) : Prop := nth_error (c_vars c) (it_at d) = Some (it_var d) /\ described (it_var d) (it_unit d) (it_extra d).
Definition register_items (ds : list item) : op := Register (map (fun d => (v_name (it_var d), it_unit d)) ds).
Definition nan_among (ds : list item) : Prop := Exists (fun d => Exists holds_nan (it_extra d)) ds.
(** Calls that all succeed, each for some variables. *)
Definition history (dss : list (list item)) : list (op * res unit) := map (fun ds => (register_items ds, Ok tt)) dss.
