(** Programs that hold their data in arrays on fields of a global collection, one
    collection per process, and keep it in a file: PyArrayModel.v and SessionModel.v
    together.

    Every process has one collection, whose fields it registers with the file by their
    names (file_io_netcdf.cc:467-573).  There are no state fields and no local
    collections here (see SessionModel.v for both), and attributes are left out.  All
    processes make the same calls on the file; what they do to their arrays differs. *)
From Coq Require Import String.
From Verif Require Import Base GridModel StridedModel UnitsModel LayoutModel FieldModel RegistryModel NumpyModel PyArrayModel.
From Verif Require Import FrameModel CommModel NetCDFModel SessionModel.
Local Open Scope Z_scope.
Local Open Scope list_scope.

Section Stack.
Context {A : Type} (zero junk : A).

(** A process: the collection and the arrays, and the members of
    [GlobalFieldCollection] that the registry does not keep, nb_domain_grid_pts and
    subdomain_locations. *)
Record member := mk_member {
  m_py : PyArrayModel.session A;
  m_dom : list Z;
  m_loc : list Z
}.
(** field_collection_global.cc:118-120.  They are set by failing calls, too, which
    leave the collection without pixels; this is not modelled. *)
Definition member_step (m : member) (k : pycall A) : member * res unit :=
  let '(s, r) := pystep zero junk (m_py m) k in
  (match k, r with
   | PColl (OInitGlobal nd _ loc _), Ok _ | PColl (OInitGlobalOrder nd _ loc _), Ok _ =>
       mk_member s nd (default_loc (c_pix (p_coll s)) loc)
   | _, _ => mk_member s (m_dom m) (m_loc m)
   end, r).
Definition member_run (m : member) (l : list (pycall A)) : member := fold_left (fun m k => fst (member_step m k)) l m.

(** ** Fields and their memory, as the file sees them *)

Definition field_for (m : member) (name : string) (r : rfield A) : nfield :=
  mk_nfield name (rf_tag r) (f_lay (rf_field r)) (m_dom m) (m_loc m).
Definition nfield_of (m : member) (name : string) : nfield :=
  match lookup name (c_fields (p_coll (m_py m))) with
  | Some r => field_for m name r
  | None => mk_nfield name EmptyString (local_layout 0 [] 1) (m_dom m) (m_loc m)
  end.
Definition values (m : member) (name : string) : list A :=
  match lookup name (c_fields (p_coll (m_py m))) with Some r => f_vals (rf_field r) | None => [] end.
(** A transfer writes through the pointer, the memory stays what it is. *)
Definition put_values (m : member) (name : string) (v : list A) : member :=
  let '(c, _) := on_field (p_coll (m_py m)) name
                   (fun f => if (length v =? length (f_vals f))%nat then (with_vals f v, Ok tt) else (f, UB)) in
  mk_member (PyArrayModel.mk_session c (p_views (m_py m))) (m_dom m) (m_loc m).

(** 467-573: in the order of the names; a name that was registered is refused.
    2230-2255: the file has no type for complex numbers. *)
Fixpoint register_names (seen : list Z) (known : list string) (m : member) (names : list string) : res (list svar) :=
  match names with
  | [] => Ok []
  | n :: rest =>
      if existsb (String.eqb n) known then Err FileIOError
      else
        let! r := get_field (p_coll (m_py m)) n in
        let '(seen', v) := register_global seen false None n (field_for m n r) in
        let! v := v in
        let! _ := if ftype_eqb (rf_type r) Complex then Err FileIOError else Ok tt in
        let! vs := register_names seen' (n :: known) m rest in
        Ok (mk_svar v None :: vs)
  end.
(** The part of the domain of a process, as [initialise_gfc_local_pixels] (745-761)
    lays it out; nothing is stored there without local collections. *)
Definition part_of (m : member) : part :=
  let n := c_pix (p_coll (m_py m)) in
  mk_part (mk_nfield EmptyString pixel_tag (mk_layout [1] 1 1 ColMajor n (running 1 n) (zprod n) (zprod n)) (m_dom m) (m_loc m))
          (fun _ => []) (nfield_of m).
(** All processes register; the definitions of the first one are those of the file. *)
Definition setup_of (ms : list member) (names : list string) : res setup :=
  let! vss := mapm (fun m => register_names [0; 0; 0] [] m names) ms in
  match vss with
  | [] => Err FileIOError
  | vs :: _ => Ok (mk_setup vs [] (fun _ => mk_ncvar EmptyString [] None) (map part_of ms))
  end.
Definition memory (ms : list member) (name : string) (h : Z) : list (list A) := map (fun m => values m name) ms.
(** What a transfer from the file left in memory. *)
Fixpoint fetch_from (i : nat) (mem : string -> Z -> list (list A)) (names : list string) (ms : list member) : list member :=
  match ms with
  | [] => []
  | m :: r => fold_left (fun m n => put_values m n (nth i (mem n 0) [])) names m :: fetch_from (S i) mem names r
  end.

(** ** Programs *)

(** The processes of the program that runs; the file, if there is one, with what the
    last program that used it knew of it; whether it is open. *)
Record state := mk_state {
  t_members : list member;
  t_file : option (SessionModel.session A);
  t_open : bool
}.
(** [TPy]: process [i] makes a call.  [TRun]: the program ends and another one starts, whose
    processes have come that far.  [TCreate]: mode Write or Overwrite, the cells of
    the new file hold [c].  [TOpen]: mode Append or Read. *)
Inductive call :=
| TPy (i : nat) (k : pycall A)
| TRun (next : list member)
| TCreate (names : list string) (c : string -> list Z -> A)
| TOpen (append : bool) (names : list string)
| TClose
| TAppendFrame
| TWrite (k : Z) (names : list string)
| TRead (k : Z) (names : list string).

(** A call on the open file, with the fields as they are now. *)
Definition on_file (s : state) (o : SessionModel.op A) : option (SessionModel.session A * res unit) :=
  match t_file s, t_open s with
  | Some f, true => Some (SessionModel.step (with_mem f (memory (t_members s))) o)
  | _, _ => None
  end.
Definition opened (s : state) (r : res (SessionModel.session A)) : state * res unit :=
  match r with Ok f => (mk_state (t_members s) (Some f) true, Ok tt) | Err e => (s, Err e) | UB => (s, UB) end.
Definition tstep (s : state) (k : call) : state * res unit :=
  match k with
  | TPy i c =>
      match nth_error (t_members s) i with
      | Some m => let '(m', r) := member_step m c in (mk_state (upd (t_members s) i m') (t_file s) (t_open s), r)
      | None => (s, Err KeyError)
      end
  | TRun next => (mk_state next (t_file s) false, Ok tt)
  | TCreate names c =>
      opened s (let! u := setup_of (t_members s) names in
                start Creating u (memory (t_members s)) (mk_ncfile 0 (fun _ _ => 0)) (mk_ncfile 0 c))
  | TOpen append names =>
      match t_file s with
      | None => (s, Err FileIOError)
      | Some f => opened s (let! u := setup_of (t_members s) names in
                            start (if append then Appending else Reading) u (memory (t_members s)) (se_hfile f) (se_file f))
      end
  | TClose => (mk_state (t_members s) (t_file s) false, Ok tt)
  | TAppendFrame =>
      match on_file s AppendFrame with
      | Some (f, r) => (mk_state (t_members s) (Some f) true, r)
      | None => (s, Err FileIOError)
      end
  | TWrite k names =>
      match on_file s (Write k names) with
      | Some (f, r) => (mk_state (t_members s) (Some f) true, r)
      | None => (s, Err FileIOError)
      end
  | TRead k names =>
      match on_file s (Read k names) with
      | Some (f, r) => (mk_state (fetch_from 0 (se_mem f) names (t_members s)) (Some f) true, r)
      | None => (s, Err FileIOError)
      end
  end.
End Stack.
Arguments member A : clear implicits.
Arguments state A : clear implicits.
Arguments call A : clear implicits.
