(** Specification vocabulary for files with several collections. *)
From Coq Require Import String.
From Verif Require Import Base LayoutModel NetCDFModel NetCDFSpec DimModel.
From Verif Require AttModel.
Local Open Scope Z_scope.
Local Open Scope list_scope.

(** The fields behind the state fields [vars]; those of [vars] that become a
    variable of their own if [subs] are fields of state fields registered before. *)
Definition subs_of (vars : list rvar) : list string :=
  flat_map (fun r => match rv_hist r with Some _ => rv_subs r | None => [] end) vars.
Fixpoint saved (subs : list string) (vars : list rvar) : list rvar :=
  match vars with
  | [] => []
  | r :: t => match rv_hist r with
              | Some _ => r :: saved (subs ++ rv_subs r) t
              | None => if in_dec string_dec (rv_name r) subs then saved subs t else r :: saved subs t
              end
  end.
Definition op_vars (o : rop) : list rvar := match o with RGlobal _ vars => vars | RLocal _ _ _ vars => vars end.
(** The names the file needs: one for each field and one for each local
    collection. *)
Fixpoint names (subs : list string) (ops : list rop) : list string :=
  match ops with
  | [] => []
  | RGlobal _ vars :: t => map rv_name (saved subs vars) ++ names (subs ++ subs_of vars) t
  | RLocal n _ _ vars :: t => n :: map rv_name (saved subs vars) ++ names (subs ++ subs_of vars) t
  end.

(** The variable [v] suits the library: legal names, no empty dimension. *)
Definition fit (v : ncvar) : Prop :=
  AttModel.legal_name (v_name v) = true /\
  Forall (fun d => AttModel.legal_name (d_name d) = true /\ (d_name d <> "frame"%string -> 0 < d_size d)) (v_dims v).

(** All fields can be registered when they are alone in a file, [var n] being the
    variable of the field [n], or of the positions of the pixels of the local
    collection [n]; [q] is the field of these positions. *)
Fixpoint registrable (var : string -> ncvar) (dom : list Z) (q : nfield) (subs : list string) (ops : list rop) : Prop :=
  match ops with
  | [] => True
  | RGlobal g vars :: t =>
      (forall r, In r (saved subs vars) -> nf_dom (rv_field r) = dom /\ registered (rv_hist r) (rv_name r) (rv_field r) (var (rv_name r))) /\
      registrable var dom q (subs ++ subs_of vars) t
  | RLocal n total pixels vars :: t =>
      registered_pixels n (named q n) (var n) /\
      (forall r, In r (saved subs vars) -> register_local total (rv_hist r) (rv_name r) (rv_field r) pixels = Ok (var (rv_name r))) /\
      registrable var dom q (subs ++ subs_of vars) t
  end.

(** A sequence of registrations: a global collection comes first, all have the
    domain [dom], no name is used twice, and no field that belongs to a state field
    has the name of another variable. *)
Definition orderly (var : string -> ncvar) (dom : list Z) (ops : list rop) : Prop :=
  (exists g vars rest q, ops = RGlobal g vars :: rest /\ pixels_field g = Ok q /\ gc_dom g = dom /\ registrable var dom q [] ops) /\
  NoDup (names [] ops) /\
  (forall s, In s (subs_of (flat_map op_vars ops)) -> ~ In s (names [] ops)) /\
  (forall n, In n (names [] ops) -> fit (var n)).

(** The file has a variable of this name with these dimensions. *)
Definition file_var (f : nclib) (name : string) (ds : list ncdim) : Prop :=
  exists ids, In (name, ids) (lf_vars f) /\ map (nth_error (lf_dims f)) ids = map Some ds.
(** The object uses the variable of the file with the name [name] for [v]. *)
Definition uses (s : sess) (name : string) (v : ncvar) : Prop :=
  exists x i ids, In x (o_vars (fst s)) /\ vo_var x = v /\ vo_id x = Some i /\
    nth_error (lf_vars (snd s)) i = Some (name, ids) /\ map (nth_error (lf_dims (snd s))) ids = map Some (v_dims v).
(** No name occurs twice, and only [frame] is unlimited. *)
Definition proper (f : nclib) : Prop :=
  NoDup (map d_name (lf_dims f)) /\ NoDup (map fst (lf_vars f)) /\
  forall d, In d (lf_dims f) -> d_size d = 0 -> d = frame_dim.
(** The variable [v] of the object has the number [i] in the file. *)
Definition number (s : sess) (v : ncvar) (i : nat) : Prop :=
  exists x, In x (o_vars (fst s)) /\ vo_var x = v /\ vo_id x = Some i.
