(** Programs that use a NetCDF file: creating or opening it, appending frames,
    writing and reading fields of global and of local collections, in any order
    and in several runs (file_io_netcdf.cc).

    All processes execute the same operations, as the library requires.  One
    variable is transferred by all processes, in their order, before the next
    one (see NetCDFModel.v).  Attributes and the registration of names are in
    AttModel.v and DimModel.v.  The positions of local pixels are kept in a file
    of their own here, they are integers.  The contents of a field after a
    transfer that failed are those before; the file likewise.  Hidden variables
    cannot be named by the program here. *)
From Coq Require Import String.
From Verif Require Import Base GridModel LayoutModel CommModel FrameModel NetCDFModel.
Local Open Scope Z_scope.
Local Open Scope list_scope.

(** One process: its part of the field of pixel positions (which is that of
    [GFC_local_pixels]), the pixels of the local collections, by the name of the
    collection, and its fields, by the name of the variable. *)
Record part := mk_part {
  pt_sub : nfield;
  pt_ids : string -> list Z;
  pt_field : string -> nfield
}.
(** A variable and, for local fields, the name of the collection, which is that
    of the hidden variable, too (2317-2341 [register_local_field_name]). *)
Record svar := mk_svar { sv_var : ncvar; sv_local : option string }.
(** What is registered: variables, local collections, hidden variables. *)
Record setup := mk_setup {
  su_vars : list svar;
  su_colls : list string;
  su_hidden : string -> ncvar;
  su_parts : list part
}.
(** Write and Overwrite; Append; Read. *)
Inductive smode := Creating | Appending | Reading.

Record session (A : Type) := mk_session {
  se_mode : smode;
  se_setup : setup;
  se_nb : Z;                                (* nb_frames *)
  se_read : list string;                    (* read_local_pixel_fields *)
  se_written : list string;                 (* written_local_pixel_fields *)
  se_hidden : string -> list (list Z);      (* GFC_local_pixels, per process *)
  se_mem : string -> Z -> list (list A);    (* fields: name, entry of the history; per process *)
  se_hfile : ncfile Z;
  se_file : ncfile A
}.
Arguments mk_session {A} _ _ _ _ _ _ _ _ _.
Arguments se_mode {A} _.
Arguments se_setup {A} _.
Arguments se_nb {A} _.
Arguments se_read {A} _.
Arguments se_written {A} _.
Arguments se_hidden {A} _.
Arguments se_mem {A} _.
Arguments se_hfile {A} _.
Arguments se_file {A} _.

Section Session.
Context {A : Type}.
Notation session := (session A).

(** ** Registration *)

(** The part of a process in collection [l]. *)
Definition in_coll (l : string) (p : part) : process A := mk_process (pt_sub p) (pt_ids p l) (pt_sub p) [].
(** 698-742 [register_lfc_to_gfc_local_pixels]: positions in the modes that
    create the file, otherwise -1. *)
Definition first_positions (m : smode) (ps : list part) (l : string) : res (list (list Z)) :=
  match m with
  | Creating => hidden_fields (counts_of (map (in_coll l) ps)) 0 (map (in_coll l) ps)
  | _ => Ok (map (fun p => repeat (-1) (Z.to_nat (l_npix (nf_lay (pt_sub p))))) ps)
  end.
Definition set_at {B} (l : string) (x : B) (g : string -> B) : string -> B :=
  fun n => if String.eqb n l then x else g n.
Fixpoint all_positions (m : smode) (ps : list part) (ls : list string) : res (string -> list (list Z)) :=
  match ls with
  | [] => Ok (fun _ => [])
  | l :: r => let! h := first_positions m ps l in let! g := all_positions m ps r in Ok (set_at l h g)
  end.
(** Constructor and [register_field_collection]: nothing was read or written;
    174-290 [open]: no frame in a new file, the number of records otherwise. *)
Definition start (m : smode) (u : setup) (mem : string -> Z -> list (list A)) (hf : ncfile Z) (f : ncfile A) : res session :=
  let! g := all_positions m (su_parts u) (su_colls u) in
  Ok (mk_session m u (recs f) [] [] g mem hf f).

(** ** Transfers *)

Definition with_file (s : session) (f : ncfile A) : session :=
  mk_session (se_mode s) (se_setup s) (se_nb s) (se_read s) (se_written s) (se_hidden s) (se_mem s) (se_hfile s) f.
Definition with_mem (s : session) (m : string -> Z -> list (list A)) : session :=
  mk_session (se_mode s) (se_setup s) (se_nb s) (se_read s) (se_written s) (se_hidden s) m (se_hfile s) (se_file s).
Definition with_nb (s : session) (n : Z) : session :=
  mk_session (se_mode s) (se_setup s) n (se_read s) (se_written s) (se_hidden s) (se_mem s) (se_hfile s) (se_file s).

Definition andthen (x : session * res unit) (f : session -> session * res unit) : session * res unit :=
  match snd x with Ok _ => f (fst x) | _ => x end.
Definition failed {B} (r : res B) : res unit := match r with Ok _ => Ok tt | Err e => Err e | UB => UB end.

(** 3282-3312 [NetCDFVariables::get_variable] *)
Definition get_variable (vs : list svar) (name : string) : option svar :=
  find (fun v => String.eqb (v_name (sv_var v)) name) vs.
(** The number of fields of a variable. *)
Definition entries (v : ncvar) : nat := match v_hist v with None => 1 | Some n => Z.to_nat n end.
Definition fields_of (s : session) (v : svar) : list nfield :=
  map (fun p => pt_field p (v_name (sv_var v))) (su_parts (se_setup s)).

(** 2554-2606: there is nothing to transfer if no position of the pixels of a local
    variable is known. *)
Definition unplaced (s : session) (v : svar) : bool :=
  match sv_local v with
  | None => false
  | Some l => forallb (fun px => match requests px with [] => true | _ => false end) (se_hidden s l)
  end.
(** 2528-2607 [NetCDFVarBase::write] by all processes, entry [h].  A file that
    was opened for reading refuses transfers. *)
Definition write_entry (k : Z) (v : svar) (h : Z) (s : session) : session * res unit :=
  let mems := se_mem s (v_name (sv_var v)) h in
  let r := if match se_mode s with Reading => negb (unplaced s v) | _ => false end then Err FileIOError
           else match sv_local v with
                | None => write_ranks (se_nb s) k (sv_var v) h (combine (fields_of s v) mems) (se_file s)
                | Some l => write_local_ranks (se_nb s) k (sv_var v) h
                              (combine (combine (fields_of s v) (se_hidden s l)) mems) (se_file s)
                end in
  match r with Ok f => (with_file s f, Ok tt) | _ => (s, failed r) end.
(** 2610-2692 [NetCDFVarBase::read] by all processes. *)
Definition read_entry (k : Z) (v : svar) (h : Z) (s : session) : session * res unit :=
  let name := v_name (sv_var v) in
  let mems := se_mem s name h in
  let r := match sv_local v with
           | None => mapm (fun x => read_global (se_nb s) k (sv_var v) h (fst x) (se_file s) (snd x))
                          (combine (fields_of s v) mems)
           | Some l => mapm (fun x => read_local (se_nb s) k (sv_var v) h (fst (fst x)) (snd (fst x)) (se_file s) (snd x))
                            (combine (combine (fields_of s v) (se_hidden s l)) mems)
           end in
  match r with
  | Ok ms => (with_mem s (fun n e => if String.eqb n name && (e =? h) then ms else se_mem s n e), Ok tt)
  | _ => (s, failed r)
  end.
(** 3188-3219 [NetCDFVarStateField::write], [read]: entry after entry. *)
Fixpoint each_entry (f : Z -> session -> session * res unit) (h : Z) (n : nat) (s : session) : session * res unit :=
  match n with
  | O => (s, Ok tt)
  | S m => andthen (f h s) (each_entry f (h + 1) m)
  end.

(** ** Hidden variables *)

Definition memberb (l : string) (ls : list string) : bool := existsb (String.eqb l) ls.
Definition subs (s : session) : list nfield := map pt_sub (su_parts (se_setup s)).
(** 321-331 and 371-379: positions are taken from the file once. *)
Definition load (k : Z) (l : string) (s : session) : session * res unit :=
  if memberb l (se_read s) then (s, Ok tt)
  else
    let r := mapm (fun x => read_global (se_nb s) k (su_hidden (se_setup s) l) 0 (fst x) (se_hfile s) (snd x))
                  (combine (subs s) (se_hidden s l)) in
    match r with
    | Ok hs => (mk_session (se_mode s) (se_setup s) (se_nb s) (se_read s ++ [l]) (se_written s)
                  (set_at l hs (se_hidden s)) (se_mem s) (se_hfile s) (se_file s), Ok tt)
    | _ => (s, failed r)
    end.
(** 358-368: and are put there once. *)
Definition store (l : string) (s : session) : session * res unit :=
  if memberb l (se_written s) then (s, Ok tt)
  else
    let r := write_ranks (se_nb s) 0 (su_hidden (se_setup s) l) 0 (combine (subs s) (se_hidden s l)) (se_hfile s) in
    match r with
    | Ok hf => (mk_session (se_mode s) (se_setup s) (se_nb s) (se_read s) (se_written s ++ [l])
                  (se_hidden s) (se_mem s) hf (se_file s), Ok tt)
    | _ => (s, failed r)
    end.

(** ** [write] and [read] *)

(** 343-386, one name *)
Definition before_write (k : Z) (v : svar) (s : session) : session * res unit :=
  match sv_local v with
  | None => (s, Ok tt)
  | Some l => match se_mode s with
              | Creating => store l s
              | Appending => load k l s
              | Reading => (s, Ok tt)
              end
  end.
Definition write_name (k : Z) (name : string) (s : session) : session * res unit :=
  match get_variable (su_vars (se_setup s)) name with
  | None => (s, Err FileIOError)
  | Some v => andthen (before_write k v s) (each_entry (write_entry k v) 0 (entries (sv_var v)))
  end.
(** 313-335, one name; the positions are read as frame 0 *)
Definition before_read (v : svar) (s : session) : session * res unit :=
  match sv_local v with None => (s, Ok tt) | Some l => load 0 l s end.
Definition read_name (k : Z) (name : string) (s : session) : session * res unit :=
  match get_variable (su_vars (se_setup s)) name with
  | None => (s, Err FileIOError)
  | Some v => andthen (before_read v s) (each_entry (read_entry k v) 0 (entries (sv_var v)))
  end.
Fixpoint each_name (f : string -> session -> session * res unit) (names : list string) (s : session) : session * res unit :=
  match names with
  | [] => (s, Ok tt)
  | n :: r => andthen (f n s) (each_name f r)
  end.

(** ** Programs *)

(** [Create]: [FileIONetCDF] with mode Write (where no file is) or Overwrite,
    with the collections and fields of the program, then [register_field_collection]
    for all of them.  Nothing is filled in (282-290), so the cells of the new file hold
    anything.  [Reopen]: [close] and open with mode Append or Read; the setup may be
    another one.  [Assign]: the program changes its fields. *)
Inductive op :=
| Create (u : setup) (mem : string -> Z -> list (list A)) (hc : string -> list Z -> Z) (c : string -> list Z -> A)
| Reopen (append : bool) (u : setup) (mem : string -> Z -> list (list A))
| AppendFrame
| Assign (mem : string -> Z -> list (list A))
| Write (k : Z) (names : list string)
| Read (k : Z) (names : list string).

Definition step (s : session) (o : op) : session * res unit :=
  match o with
  | Create u mem hc c => let r := start Creating u mem (mk_ncfile 0 hc) (mk_ncfile 0 c) in
                         match r with Ok s' => (s', Ok tt) | _ => (s, failed r) end
  | Reopen append u mem => let r := start (if append then Appending else Reading) u mem (se_hfile s) (se_file s) in
                           match r with Ok s' => (s', Ok tt) | _ => (s, failed r) end
  | AppendFrame => (with_nb s (fst (fstep (se_nb s) Append)), Ok tt)
  | Assign mem => (with_mem s mem, Ok tt)
  | Write k names => each_name (write_name k) names s
  | Read k names => each_name (read_name k) names s
  end.
End Session.
Arguments op : clear implicits.
