(** Specification vocabulary for attributes and open modes of files. *)
From Coq Require Import String.
From Verif Require Import Base AttModel.
Local Open Scope Z_scope.
Local Open Scope list_scope.

(** What a user sees of an attribute: type and value. *)
Definition dictionary := string -> option (nctype * bytes).
Definition shown (s : st) : dictionary :=
  fun n => match read_global_attribute n s with Some m => Some (m_type m, m_val m) | None => None end.
(** The attributes of a file. *)
Definition stored_atts (c : content) : dictionary :=
  fun n => match find_att n (c_gatts c) with Some a => Some (a_type a, a_val a) | None => None end.
Definition set (d : dictionary) (n : string) (x : option (nctype * bytes)) : dictionary :=
  fun k => if String.eqb k n then x else d k.
(** What a successful operation does to the attributes. *)
Definition effect (o : op) (d : dictionary) : dictionary :=
  match o with
  | WriteAtt n t v => set d n (Some (t, v))
  | UpdateAtt old new t v => set (set d old None) new (Some (t, v))
  | _ => d
  end.

(** Runs of a program with the outcome of every operation, successful or not. *)
Inductive runs : st -> list (op * res unit) -> st -> Prop :=
| runs_nil s : runs s [] s
| runs_cons s o s1 r h s2 : step o s = (s1, r) -> runs s1 h s2 -> runs s ((o, r) :: h) s2.
(** The dictionary after a run: only what succeeded counts. *)
Fixpoint after (h : list (op * res unit)) (d : dictionary) : dictionary :=
  match h with
  | [] => d
  | (o, Ok _) :: t => after t (effect o d)
  | _ :: t => after t d
  end.

(** A value of one of the types offered to users. *)
Definition value_ok (t : nctype) (v : bytes) : Prop := supported t = true /\ exists n, List.length v = (n * tsize t)%nat.
Definition op_ok (o : op) : Prop :=
  match o with WriteAtt _ t v | UpdateAtt _ _ t v => value_ok t v | _ => True end.
(** An update keeps the name, or changes it to a legal one that no attribute has. *)
Definition tidy (s : st) (o : op) : Prop :=
  match o with
  | UpdateAtt old new _ _ => new = old \/ legal_name new = true /\ ~ In new (read_global_attribute_names s)
  | _ => True
  end.
Inductive tidy_runs : st -> list (op * res unit) -> st -> Prop :=
| tidy_nil s : tidy_runs s [] s
| tidy_cons s o s1 r h s2 : op_ok o -> tidy s o -> step o s = (s1, r) -> tidy_runs s1 h s2 -> tidy_runs s ((o, r) :: h) s2.

(** The two attributes that [close] rewrites. *)
Definition stamps : list string := ["last_modified_date"; "last_modified_time"]%string.
(** Lengths of [todays_date] and [time_now]. *)
Definition clock (date time : bytes) : Prop := List.length date = 18%nat /\ List.length time = 16%nat.

(** A file whose global attributes can be read: legal distinct names, types
    with a vector, whole values. *)
Definition readable (c : content) : Prop :=
  NoDup (map a_name (c_gatts c)) /\
  Forall (fun a => legal_name (a_name a) = true /\ value_ok (a_type a) (a_val a)) (c_gatts c).

(** A new object for writing. *)
Definition opened (m : omode) (disk : option content) (s : st) : Prop :=
  exists info hash descr dirty date time d, clock date time /\ open m info hash descr dirty date time disk = (Ok s, d).
Definition no_register (o : op) : Prop := match o with Register _ => False | _ => True end.

(** The value of a variable in a frame: what was written last. *)
Definition held (c : content) (n : string) (f : Z) : option Z :=
  match position (fun v => String.eqb (v_name v) n) (c_vars c) with
  | None => None
  | Some i => match find (fun e => (fst (fst e) =? i)%nat && (snd (fst e) =? f)) (rev (c_data c)) with Some e => Some (snd e) | None => None end
  end.
(** No name twice and no value without variable. *)
Definition sound (c : content) : Prop :=
  NoDup (map v_name (c_vars c)) /\ Forall (fun e => (fst (fst e) < List.length (c_vars c))%nat) (c_data c).
(** Does this operation write variable [n] in frame [f]?  The value after a run:
    only what succeeded counts. *)
Definition targets (o : op) (n : string) (f : Z) : bool :=
  match o with Write g _ ns => (g =? f) && existsb (String.eqb n) ns | _ => false end.
Fixpoint latest (h : list (op * res unit)) (n : string) (f : Z) (d : option Z) : option Z :=
  match h with
  | [] => d
  | (Write g x ns as o, Ok _) :: t => latest t n f (if targets o n f then Some x else d)
  | _ :: t => latest t n f d
  end.
(** No failed operation would have written it. *)
Definition undisturbed (h : list (op * res unit)) (n : string) (f : Z) : Prop :=
  Forall (fun p => snd p = Ok tt \/ targets (fst p) n f = false) h.
(** Names given to new attributes are legal; the two of [close] are left alone. *)
Definition legal_op (o : op) : Prop :=
  match o with WriteAtt n _ _ => legal_name n = true | UpdateAtt old _ _ _ => ~ In old stamps | _ => True end.
Definition no_update (o : op) : Prop := match o with UpdateAtt _ _ _ _ => False | _ => True end.
(** The names of variables a run registers. *)
Definition registered (h : list (op * res unit)) : list string :=
  flat_map (fun p => match fst p with Register vs => map fst vs | _ => [] end) h.
(** The operations that change a file opened in this mode. *)
Definition alters (m : omode) (o : op) : Prop :=
  match o with Write _ _ _ | UpdateAtt _ _ _ _ => True | Register _ => writes m = true | _ => False end.
