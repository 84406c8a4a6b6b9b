(** Option dictionaries (options_dictionary.hh/.cc) and their conversion from
    Python dictionaries (bind_py_options_dictionary.cc).

    A program holds variables of type Dictionary; each is a shared pointer to a
    RuntimeValue.  The RuntimeValues form a heap.  Nodes that lost their last
    owner stay in the model's heap, where nothing can observe them; the union
    inside RuntimeValue is modelled by a sum type.  Real numbers and matrices
    are abstract types. *)
From Coq Require Import String.
From Verif Require Import Base RegistryModel.
Local Open Scope list_scope.

Section Dict.
Context {R M : Type}.

(** options_dictionary.hh:60-117: the values and node kinds. *)
Inductive dval : Type := VInt (i : Z) | VReal (r : R) | VMat (m : M).
Inductive node : Type := NVal (v : dval) | NDict (m : list (string * nat)).
Inductive vtype : Set := TDict | TInt | TReal | TMat.
Definition type_of (n : node) : vtype :=
  match n with NVal (VInt _) => TInt | NVal (VReal _) => TReal | NVal (VMat _) => TMat | NDict _ => TDict end.

(** A variable: not (yet) a Dictionary, moved from, or pointing to a node. *)
Inductive handle : Type := Unset | Moved | At (a : nat).
Record dstate := mk_dstate { d_heap : list node; d_vars : nat -> handle }.
Definition set_var (vs : nat -> handle) (v : nat) (h : handle) : nat -> handle :=
  fun w => if Nat.eqb w v then h else vs w.
Definition empty_state : dstate := mk_dstate [] (fun _ => Unset).

(** Dereferencing [this->ptr]. *)
Definition addr (s : dstate) (v : nat) : res nat :=
  match d_vars s v with At a => Ok a | _ => UB end.
Definition node_at (s : dstate) (a : nat) : res node :=
  match nth_error (d_heap s) a with Some n => Ok n | None => UB end.
(** cc:255-261 [get_value], 63-65 [operator[]] *)
Definition child (s : dstate) (a : nat) (key : string) : res nat :=
  let! n := node_at s a in
  match n with
  | NDict m => match lookup key m with Some b => Ok b | None => Err OutOfRange end
  | NVal _ => Err ValueError
  end.
Definition alloc (s : dstate) (n : node) : dstate * nat :=
  (mk_dstate (d_heap s ++ [n]) (d_vars s), length (d_heap s)).
Definition set_node (s : dstate) (a : nat) (n : node) : dstate :=
  mk_dstate (upd (d_heap s) a n) (d_vars s).
Definition bind_var (s : dstate) (v : nat) (h : handle) : dstate :=
  mk_dstate (d_heap s) (set_var (d_vars s) v h).

(** cc:213-228 [add] of a node, 198-211 [add] of a value (in a new node). *)
Definition add_node (s : dstate) (a : nat) (key : string) (b : nat) : dstate * res unit :=
  match node_at s a with
  | Ok (NDict m) =>
      match lookup key m with
      | Some _ => (s, Err KeyError)
      | None => (set_node s a (NDict (insert key b m)), Ok tt)
      end
  | Ok (NVal _) => (s, Err ValueError)
  | Err e => (s, Err e)
  | UB => (s, UB)
  end.
Definition add_value (s : dstate) (a : nat) (key : string) (v : dval) : dstate * res unit :=
  match node_at s a with
  | Ok (NDict m) =>
      match lookup key m with
      | Some _ => (s, Err KeyError)
      | None => let '(s1, b) := alloc s (NVal v) in (set_node s1 a (NDict (insert key b m)), Ok tt)
      end
  | Ok (NVal _) => (s, Err ValueError)
  | Err e => (s, Err e)
  | UB => (s, UB)
  end.
(** cc:140-163: assignment of a value destroys what the node held. *)
Definition assign_value (s : dstate) (a : nat) (v : dval) : dstate := set_node s a (NVal v).

(** cc:231-252 typed getters, 287-289 value type. *)
Definition node_int (n : node) : res Z := match n with NVal (VInt i) => Ok i | _ => Err ValueError end.
Definition node_real (n : node) : res R := match n with NVal (VReal r) => Ok r | _ => Err ValueError end.
Definition node_mat (n : node) : res M := match n with NVal (VMat m) => Ok m | _ => Err ValueError end.
Definition get_with {B} (g : node -> res B) (s : dstate) (v : nat) : res B :=
  let! a := addr s v in let! n := node_at s a in g n.
Definition get_int := get_with node_int.
Definition get_real := get_with node_real.
Definition get_matrix := get_with node_mat.
Definition get_value_type (s : dstate) (v : nat) : res vtype :=
  let! a := addr s v in let! n := node_at s a in Ok (type_of n).

(** Statements of a program using dictionaries. *)
Inductive dop : Type :=
| DNew (v : nat)                                  (* Dictionary v{} *)
| DNewWith (v : nat) (key : string) (x : dval)    (* Dictionary v{key, x} *)
| DCopy (v w : nat)                               (* Dictionary v{w}, v = w *)
| DMove (v w : nat)                               (* Dictionary v{std::move(w)} *)
| DIndex (v w : nat) (key : string)               (* Dictionary v{w[key]} *)
| DAdd (v : nat) (key : string) (x : dval)        (* v.add(key, x) *)
| DAddDict (v : nat) (key : string) (w : nat)     (* v.add(key, w) *)
| DAssign (v : nat) (x : dval)                    (* v = x *)
| DAssignAt (v : nat) (key : string) (x : dval)   (* v[key] = x *)
| DAssignOf (v w : nat)                           (* v = w.get_int(), v = w.get_real(), v = w.get_matrix() *)
| DAssignDictAt (v : nat) (key : string) (w : nat). (* v[key] = w *)

(** Result of a computation that does not change the state. *)
Definition lift {B} (s : dstate) (x : res B) (k : B -> dstate * res unit) : dstate * res unit :=
  match x with Ok b => k b | Err e => (s, Err e) | UB => (s, UB) end.

(** A matrix assigned from a reference into the node itself is read after it
    was destroyed (cc:157-163); integers and reals are not destroyed.  Copy
    assignment to the temporary [v[key]] (hh:146) rebinds the temporary. *)
Definition dstep (s : dstate) (o : dop) : dstate * res unit :=
  match o with
  | DNew v => let '(s1, a) := alloc s (NDict []) in (bind_var s1 v (At a), Ok tt)
  | DNewWith v key x =>
      let '(s1, b) := alloc s (NVal x) in
      let '(s2, a) := alloc s1 (NDict [(key, b)]) in (bind_var s2 v (At a), Ok tt)
  | DCopy v w => match d_vars s w with Unset => (s, UB) | h => (bind_var s v h, Ok tt) end
  | DMove v w => match d_vars s w with Unset => (s, UB) | h => (bind_var (bind_var s w Moved) v h, Ok tt) end
  | DIndex v w key => lift s (let! a := addr s w in child s a key) (fun b => (bind_var s v (At b), Ok tt))
  | DAdd v key x => lift s (addr s v) (fun a => add_value s a key x)
  | DAddDict v key w => lift s (let! a := addr s v in let! b := addr s w in Ok (a, b)) (fun p => add_node s (fst p) key (snd p))
  | DAssign v x => lift s (let! a := addr s v in let! _ := node_at s a in Ok a) (fun a => (assign_value s a x, Ok tt))
  | DAssignAt v key x => lift s (let! a := addr s v in child s a key) (fun b => (assign_value s b x, Ok tt))
  | DAssignOf v w =>
      lift s (let! a := addr s v in let! _ := node_at s a in let! b := addr s w in let! n := node_at s b in Ok (a, b, n)) (fun p =>
        match snd p with
        | NVal (VMat m) => if Nat.eqb (fst (fst p)) (snd (fst p)) then (s, UB) else (assign_value s (fst (fst p)) (VMat m), Ok tt)
        | NVal x => (assign_value s (fst (fst p)) x, Ok tt)
        | NDict _ => (s, Err ValueError)
        end)
  | DAssignDictAt v key w =>
      lift s (let! a := addr s v in let! b := addr s w in child s a key) (fun _ => (s, Ok tt))
  end.
Definition drun (s : dstate) (h : list dop) : dstate := fold_left (fun s o => fst (dstep s o)) h s.

(** ** RuntimeValue assignment (cc:166-195), public but not used by Dictionary:
    the union member of the new kind is assigned without having been
    constructed. *)
Definition rv_assign_map (dst : node) (m : list (string * nat)) : res node := UB.
Definition rv_assign (dst src : node) : res node :=
  match src with
  | NVal (VInt i) => Ok (NVal (VInt i))
  | NVal (VReal r) => Ok (NVal (VReal r))
  | NVal (VMat _) => UB
  | NDict _ => UB
  end.

(** ** Conversion from Python (bind_py_options_dictionary.cc:53-75) *)

(** A Python value: the supported kinds and the rest; a dictionary lists its
    items in iteration order, keys being strings or not. *)
Inductive py : Type := PInt (i : Z) | PReal (r : R) | PMat (m : M) | PDict (l : list (option string * py)) | POther.

(** [value.cast<Int>()] (62, 154): integers of more than 32 bits are refused by
    pybind11, which is a [RuntimeError] in Python. *)
Definition cast_int (i : Z) : bool := ((- 2 ^ 31 <=? i) && (i <? 2 ^ 31))%Z.
(** The variables of the program are not involved; the outcome is the address
    of the new dictionary. *)
Definition fill_dict (conv : dstate -> py -> dstate * res nat) : dstate -> nat -> list (option string * py) -> dstate * res nat :=
  fix fill (s : dstate) (a : nat) (l : list (option string * py)) : dstate * res nat :=
  match l with
  | [] => (s, Ok a)
  | (None, _) :: _ => (s, Err RuntimeError)
  | (Some key, x) :: r =>
      let step :=
        match x with
        | PInt i => if cast_int i then add_value s a key (VInt i) else (s, Err RuntimeError)
        | PReal y => add_value s a key (VReal y)
        | PMat m => add_value s a key (VMat m)
        | PDict _ => match conv s x with
                     | (s1, Ok b) => add_node s1 a key b
                     | (s1, Err e) => (s1, Err e)
                     | (s1, UB) => (s1, UB)
                     end
        | POther => (s, Err RuntimeError)
        end in
      match step with
      | (s1, Ok _) => fill s1 a r
      | (s1, Err e) => (s1, Err e)
      | (s1, UB) => (s1, UB)
      end
  end.
Fixpoint convert (s : dstate) (x : py) {struct x} : dstate * res nat :=
  match x with
  | PDict l => let '(s1, a) := alloc s (NDict []) in fill_dict convert s1 a l
  | _ => (s, Err RuntimeError)
  end.
(** 95-131 [__getitem__] *)
Definition py_getitem (s : dstate) (a : nat) (key : string) : res dval :=
  let! b := child s a key in
  let! n := node_at s b in
  match n with NVal v => Ok v | NDict _ => Err RuntimeError end.
(** 149-166 [__setitem__]: a dictionary is converted and the result assigned to
    the temporary handle. *)
Definition py_setitem (s : dstate) (a : nat) (key : string) (x : py) : dstate * res unit :=
  match x with
  | PInt i => if cast_int i then lift s (child s a key) (fun b => (assign_value s b (VInt i), Ok tt)) else (s, Err RuntimeError)
  | PReal r => lift s (child s a key) (fun b => (assign_value s b (VReal r), Ok tt))
  | PMat m => lift s (child s a key) (fun b => (assign_value s b (VMat m), Ok tt))
  | PDict _ =>
      (* the right-hand side is evaluated first, also above *)
      match convert s x with
      | (s1, Ok _) => lift s1 (child s1 a key) (fun _ => (s1, Ok tt))
      | (s1, Err e) => (s1, Err e)
      | (s1, UB) => (s1, UB)
      end
  | POther => (s, Err RuntimeError)
  end.
End Dict.
Arguments dval R M : clear implicits.
Arguments node R M : clear implicits.
Arguments dstate R M : clear implicits.
Arguments dop R M : clear implicits.
Arguments py R M : clear implicits.
