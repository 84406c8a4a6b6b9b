(** Programs with arrays, state fields and a file: StackModel.v extended by the state
    fields of the collections (StateModel.v).

    Every process has one global collection, whose fields and state fields it
    registers with the file (file_io_netcdf.cc:64-171, 467-573).  There are no local
    collections here, and attributes are left out (see SessionModel.v and AttModel.v).
    All processes make the same calls on the file; what they do to their arrays
    differs. *)
From Coq Require Import String.
From Verif Require Import Base GridModel StridedModel UnitsModel LayoutModel FieldModel RegistryModel StateModel NumpyModel PyArrayModel.
From Verif Require Import FrameModel CommModel NetCDFModel SessionModel StackModel.
Local Open Scope Z_scope.
Local Open Scope list_scope.

Section Resume.
Context {A : Type} (zero junk : A).

(** ** Processes *)

(** A process of StackModel.v and the state fields of its collection
    (field_collection.hh:861). *)
Record proc := mk_proc { r_m : member A; r_states : list (string * sfield) }.
Definition with_coll (m : member A) (c : coll A) : member A :=
  mk_member (PyArrayModel.mk_session c (p_views (m_py m))) (m_dom m) (m_loc m).
Definition sys_of (p : proc) : sys A := mk_sys (p_coll (m_py (r_m p))) (r_states p).
Definition from_sys (p : proc) (y : sys A) : proc := mk_proc (with_coll (r_m p) (y_coll y)) (y_states y).

(** [RPy]: the calls of PyArrayModel.v.  [RRegister]: bind_py_field_collection.cc:168-223
    and 324-378 (the latter with permission to reuse).  [RCycle], [RArray]:
    bind_py_state_field.cc:66-75, [get_state_field(prefix).cycle()] and
    [get_state_field(prefix).old(k).s] or [.p], [current()] for [k = 0]. *)
Inductive pcall :=
| RPy (k : pycall A)
| RRegister (prefix : string) (ty : ftype) (mem nbc : Z) (tag : string) (u : unit_t) (allow_existing : bool)
| RCycle (prefix : string)
| RArray (prefix : string) (k : nat) (u : iter_unit).
Definition proc_step (p : proc) (c : pcall) : proc * res unit :=
  match c with
  | RPy k => let '(m, r) := member_step zero junk (r_m p) k in (mk_proc m (r_states p), r)
  | RRegister prefix ty mem nbc tag u allow =>
      let '(y, r) := register_state zero (sys_of p) prefix ty mem nbc tag u allow in (from_sys p y, r)
  | RCycle prefix => let '(y, r) := sstep zero (sys_of p) (SCycle prefix) in (from_sys p y, r)
  | RArray prefix k u =>
      match name_at (sys_of p) prefix k with
      | Ok n => let '(m, r) := member_step zero junk (r_m p) (PArray n u) in (mk_proc m (r_states p), r)
      | Err e => (p, Err e) | UB => (p, UB)
      end
  end.
Definition proc_run (p : proc) (l : list pcall) : proc := fold_left (fun p c => fst (proc_step p c)) l p.

(** ** Variables of the file *)

(** The field behind entry [h] of a variable, which is one of a state field ([st]) or
    of a field: 2942-2948 [NetCDFVarStateField::get_field]. *)
Definition entry_name (p : proc) (st : bool) (name : string) (h : Z) : res string :=
  if st then name_at (sys_of p) name (Z.to_nat h) else Ok name.
Definition values_at (p : proc) (st : bool) (name : string) (h : Z) : list A :=
  match entry_name p st name h with Ok n => values (r_m p) n | _ => [] end.
Definition is_state (prefixes : list string) (name : string) : bool := existsb (String.eqb name) prefixes.
(** 467-573: state fields first, then fields; a name that is registered is refused, and
    fields that belong to a state field are passed over (519-525).  The dimensions are those of the
    current field (494-500).  2230-2255: the file has no type for complex numbers. *)
Fixpoint register_vars (seen : list Z) (known skip : list string) (p : proc) (l : list (bool * string)) : res (list svar) :=
  match l with
  | [] => Ok []
  | (st, n) :: rest =>
      if existsb (String.eqb n) known then Err FileIOError
      else if negb st && existsb (String.eqb n) skip then register_vars seen known skip p rest
      else
        let! hs := if st then let! s := get_state (sys_of p) n in Ok (Some (s_mem s + 1), sub_names n (s_mem s)) else Ok (None, []) in
        let! m := entry_name p st n 0 in
        let! r := get_field (p_coll (m_py (r_m p))) m in
        let '(seen', v) := register_global seen false (fst hs) n (field_for (r_m p) m r) in
        let! v := v in
        let! _ := if ftype_eqb (rf_type r) Complex then Err FileIOError else Ok tt in
        let! vs := register_vars seen' (n :: known) (skip ++ snd hs) p rest in
        Ok (mk_svar v None :: vs)
  end.
Definition vars_of (prefixes names : list string) : list (bool * string) := map (pair true) prefixes ++ map (pair false) names.
(** See [StackModel.part_of]. *)
Definition part_at (prefixes : list string) (p : proc) : part :=
  let q := part_of (r_m p) in
  mk_part (pt_sub q) (pt_ids q)
          (fun name => match entry_name p (is_state prefixes name) name 0 with
                       | Ok n => nfield_of (r_m p) n
                       | _ => nfield_of (r_m p) name
                       end).
(** All processes register; the definitions of the first one are those of the file. *)
Definition setup_at (ps : list proc) (prefixes names : list string) : res setup :=
  let! vss := mapm (fun p => register_vars [0; 0; 0] [] [] p (vars_of prefixes names)) ps in
  match vss with
  | [] => Err FileIOError
  | vs :: _ => Ok (mk_setup vs [] (fun _ => mk_ncvar EmptyString [] None) (map (part_at prefixes) ps))
  end.
Definition memory_at (prefixes : list string) (ps : list proc) (name : string) (h : Z) : list (list A) :=
  map (fun p => values_at p (is_state prefixes name) name h) ps.

(** 3183-3213: a transfer from the file puts one entry after the other; what it left
    in memory. *)
Definition put_entry (st : bool) (name : string) (v : list A) (p : proc) (h : Z) : proc :=
  match entry_name p st name h with Ok n => mk_proc (put_values (r_m p) n v) (r_states p) | _ => p end.
Definition depth (p : proc) (st : bool) (name : string) : nat :=
  if st then match get_state (sys_of p) name with Ok s => Z.to_nat (s_mem s + 1) | _ => O end else 1%nat.
Definition fetch_var (i : nat) (mem : string -> Z -> list (list A)) (st : bool) (p : proc) (name : string) : proc :=
  fold_left (fun p h => put_entry st name (nth i (mem name h) []) p h) (zrange (depth p st name)) p.
Fixpoint fetch_at (i : nat) (prefixes : list string) (mem : string -> Z -> list (list A)) (names : list string) (ps : list proc) : list proc :=
  match ps with
  | [] => []
  | p :: r => fold_left (fun p n => fetch_var i mem (is_state prefixes n) p n) names p :: fetch_at (S i) prefixes mem names r
  end.

(** ** Programs *)

(** The processes of the program that runs; the file, if there is one, with what the
    last program that used it knew of it; whether it is open; which variables were
    registered as state fields. *)
Record rstate := mk_rstate {
  r_procs : list proc;
  r_file : option (SessionModel.session A);
  r_open : bool;
  r_prefixes : list string
}.
(** [QProc]: process [i] makes a call.  [QRun]: the program ends and another one starts,
    whose processes have come that far.  [QCreate]: mode Write or Overwrite, the cells of
    the new file hold [c].  [QOpen]: mode Append or Read. *)
Inductive rcall :=
| QProc (i : nat) (c : pcall)
| QRun (next : list proc)
| QCreate (prefixes names : list string) (c : string -> list Z -> A)
| QOpen (append : bool) (prefixes names : list string)
| QClose
| QAppendFrame
| QWrite (k : Z) (names : list string)
| QRead (k : Z) (names : list string).

(** A call on the open file, with the fields as they are now. *)
Definition on_open (s : rstate) (o : SessionModel.op A) : option (SessionModel.session A * res unit) :=
  match r_file s, r_open s with
  | Some f, true => Some (SessionModel.step (with_mem f (memory_at (r_prefixes s) (r_procs s))) o)
  | _, _ => None
  end.
Definition ready (s : rstate) (prefixes : list string) (r : res (SessionModel.session A)) : rstate * res unit :=
  match r with Ok f => (mk_rstate (r_procs s) (Some f) true prefixes, Ok tt) | Err e => (s, Err e) | UB => (s, UB) end.
Definition rstep (s : rstate) (k : rcall) : rstate * res unit :=
  match k with
  | QProc i c =>
      match nth_error (r_procs s) i with
      | Some p => let '(p', r) := proc_step p c in (mk_rstate (upd (r_procs s) i p') (r_file s) (r_open s) (r_prefixes s), r)
      | None => (s, Err KeyError)
      end
  | QRun next => (mk_rstate next (r_file s) false [], Ok tt)
  | QCreate prefixes names c =>
      ready s prefixes (let! u := setup_at (r_procs s) prefixes names in
                        start Creating u (memory_at prefixes (r_procs s)) (mk_ncfile 0 (fun _ _ => 0)) (mk_ncfile 0 c))
  | QOpen append prefixes names =>
      match r_file s with
      | None => (s, Err FileIOError)
      | Some f => ready s prefixes (let! u := setup_at (r_procs s) prefixes names in
                                    start (if append then Appending else Reading) u (memory_at prefixes (r_procs s)) (se_hfile f) (se_file f))
      end
  | QClose => (mk_rstate (r_procs s) (r_file s) false (r_prefixes s), Ok tt)
  | QAppendFrame =>
      match on_open s AppendFrame with
      | Some (f, r) => (mk_rstate (r_procs s) (Some f) true (r_prefixes s), r)
      | None => (s, Err FileIOError)
      end
  | QWrite k names =>
      match on_open s (Write k names) with
      | Some (f, r) => (mk_rstate (r_procs s) (Some f) true (r_prefixes s), r)
      | None => (s, Err FileIOError)
      end
  | QRead k names =>
      match on_open s (Read k names) with
      | Some (f, r) => (mk_rstate (fetch_at 0 (r_prefixes s) (se_mem f) names (r_procs s)) (Some f) true (r_prefixes s), r)
      | None => (s, Err FileIOError)
      end
  end.
End Resume.
Arguments proc A : clear implicits.
Arguments pcall A : clear implicits.
Arguments rstate A : clear implicits.
Arguments rcall A : clear implicits.
