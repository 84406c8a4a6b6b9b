(** The calls by which the processes of a parallel program define a NetCDF file, its
    variables and its attributes (file_io_netcdf.cc, built with MPI and PnetCDF).

    AttModel.v has one process.  Here every process has its own object and its own
    copy of the header of the file, and its own clock; each call of the library that
    AttModel.v makes is collective in PnetCDF: it returns when all processes have
    made it.  The processes have nothing else in common, so what they do between two
    calls needs no steps of its own.  PnetCDF asks for the same arguments on all
    processes.  It is taken to work, each process changing its own copy, if they
    differ in the bytes of the value of an attribute only, as PnetCDF does unless
    its safe mode is on; any other difference leaves the program stuck.  The
    header in the file is that of process 0: it reads it when the file is opened and
    writes it when the file is closed.  A value that is written to a variable stands
    for the values of all processes together (ParModel.v has the parts of
    processes). *)
From Coq Require Import String.
From Verif Require Import Base AttModel.
Local Open Scope Z_scope.
Local Open Scope list_scope.

(** ** Calls *)

Inductive lcall :=
| LOpen (m : omode)
| LClose
| LRedef
| LEnddef
| LPutGatt (b : att)
| LRename (old new : string)
| LDefVar (n : string)
| LPutVatt (id : nat) (b : att)
| LPutVar (id : option nat) (frame value : Z)
| LGetVar (id : option nat).

Definition exec (c : lcall) : lib -> ncerr + lib :=
  match c with
  | LRedef => lib_redef
  | LEnddef => lib_enddef
  | LPutGatt b => lib_put_gatt b
  | LRename old new => lib_rename_gatt old new
  | LDefVar n => lib_def_var n
  | LPutVatt id b => lib_put_vatt id b
  | LPutVar id f x => lib_put_var id f x
  | LGetVar id => lib_get_var id
  | LOpen _ | LClose => fun l => inr l
  end.
(** What a process with this header gets: a status and its header afterwards. *)
Definition answer (disk : option content) (c : lcall) (h : option lib) : option ncerr * option lib :=
  match c with
  | LOpen m =>
      match m, disk with
      | OWrite, Some _ => (Some EExist, None)
      | OWrite, None | OOverwrite, _ => (None, Some (mk_lib true true nothing))
      | _, None => (Some ENoFile, None)
      | OAppend, Some d => (None, Some (mk_lib true false d))
      | ORead, Some d => (None, Some (mk_lib false false d))
      end
  | LClose => match h with None => (Some EBadId, None) | Some _ => (None, None) end
  | _ => match h with
         | None => (Some EBadId, None)
         | Some l => match exec c l with inl e => (Some e, h) | inr l' => (None, Some l') end
         end
  end.
(** What is on disk after the call; [h] is the header of process 0. *)
Definition disk_after (disk : option content) (c : lcall) (h : option lib) : option content :=
  match c with
  | LOpen m => match m, disk with OWrite, None | OOverwrite, _ => Some nothing | _, _ => disk end
  | LClose => match h with Some l => if l_rw l then Some (l_c l) else disk | None => disk end
  | _ => disk
  end.

(** ** Processes *)

(** A process: its object and its header. *)
Record proc := mk_proc { p_obj : session; p_lib : option lib }.
(** What it still has to do. *)
Inductive prog :=
| Fin (x : proc) (outcomes : list (res unit))
| Call (c : lcall) (h : option lib) (k : option ncerr -> option lib -> prog).

(** The calls of two processes that PnetCDF lets pass. *)
Definition same_call (c d : lcall) : Prop :=
  match c, d with
  | LPutGatt a, LPutGatt b => a_name a = a_name b /\ a_type a = a_type b /\ List.length (a_val a) = List.length (a_val b)
  | _, _ => c = d
  end.
(** All processes make their call; the first one is process 0. *)
Record caller := mk_caller { k_call : lcall; k_head : option lib; k_next : option ncerr -> option lib -> prog }.
Definition calling (x : caller) : prog := Call (k_call x) (k_head x) (k_next x).
Definition returned (disk : option content) (x : caller) : prog :=
  let a := answer disk (k_call x) (k_head x) in k_next x (fst a) (snd a).
Definition config : Type := option content * list prog.
Inductive pstep : config -> config -> Prop :=
| pstep_call disk x xs :
    Forall (fun y => same_call (k_call x) (k_call y)) xs ->
    pstep (disk, map calling (x :: xs))
          (disk_after disk (k_call x) (k_head x), map (returned disk) (x :: xs)).

(** ** Functions of the object, as in AttModel.v *)

Definition H (A : Type) : Type := proc -> (proc -> res A -> prog) -> prog.
Definition hret {A} (a : A) : H A := fun x k => k x (Ok a).
Definition hthrow {A} : H A := fun x k => k x (Err FileIOError).
Definition hlift {A} (r : res A) : H A := fun x k => k x r.
Definition hbind {A B} (m : H A) (f : A -> H B) : H B :=
  fun x k => m x (fun x' a => match a with Ok v => f v x' k | Err e => k x' (Err e) | UB => k x' UB end).
Notation "'hdo' x <- a ; b" := (hbind a (fun x => b)) (at level 200, x pattern, a at level 100, b at level 200).
Notation "'hrun' a ; b" := (hbind a (fun _ => b)) (at level 200, a at level 100, b at level 200).
Definition hobj : H session := fun x k => k x (Ok (p_obj x)).
Definition hupd (g : session -> session) : H unit := fun x k => k (mk_proc (g (p_obj x)) (p_lib x)) (Ok tt).
Definition hcall (c : lcall) : H (option ncerr) :=
  fun x k => Call c (p_lib x) (fun e h => k (mk_proc (p_obj x) h) (Ok e)).
Definition hcheck (c : lcall) : H unit := hdo e <- hcall c; match e with None => hret tt | Some _ => hthrow end.
(** Inquiries look at the header of the process. *)
Definition hinquire {A} (g : content -> A) : H A :=
  fun x k => match p_lib x with None => k x (Err FileIOError) | Some l => k x (Ok (g (l_c l))) end.
Fixpoint heach {A} (f : A -> H unit) (l : list A) : H unit :=
  match l with [] => hret tt | a :: r => hrun f a; heach f r end.
Definition hset_flag (m : nmode) : H unit := hupd (fun o => mk_session (s_mode o) m (s_changed o) (s_gdef o) (s_atts o) (s_vars o)).
Definition hset_changed : H unit := hupd (fun o => mk_session (s_mode o) (s_flag o) true (s_gdef o) (s_atts o) (s_vars o)).
Definition hset_gdef : H unit := hupd (fun o => mk_session (s_mode o) (s_flag o) (s_changed o) true (s_atts o) (s_vars o)).
Definition hset_atts (l : list matt) : H unit := hupd (fun o => mk_session (s_mode o) (s_flag o) (s_changed o) (s_gdef o) l (s_vars o)).
Definition hset_vars (l : list mvar) : H unit := hupd (fun o => mk_session (s_mode o) (s_flag o) (s_changed o) (s_gdef o) (s_atts o) l).

(** 1138-1147 *)
Definition h_file_changes : H unit :=
  hdo o <- hobj;
  match s_mode o with ORead => hret tt | _ => hset_changed end.
(** .hh 1065-1073, 1412-1430 *)
Definition h_add_attribute (n : string) (t : nctype) (v : bytes) : H unit :=
  hdo o <- hobj;
  if has_att n (s_atts o) then hthrow else hset_atts (s_atts o ++ [new_matt n t v]).
Definition h_write_global_attribute (n : string) (t : nctype) (v : bytes) : H unit :=
  hdo o <- hobj;
  if s_gdef o then hthrow
  else if negb (writes (s_mode o)) then hthrow
  else h_add_attribute n t v.
(** 931-981 *)
Definition h_define_one (i : nat) : H unit :=
  hdo o <- hobj;
  match nth_error (s_atts o) i with
  | None => hret tt
  | Some m =>
      if m_written m then hret tt
      else hrun hcheck (LPutGatt (to_att m));
           hset_atts (upd (s_atts o) i (mk_matt (m_name m) (m_type m) (m_n m) (m_val m) (m_init m) true))
  end.
Definition h_define_global_attributes : H unit :=
  hdo o <- hobj;
  if s_gdef o then hthrow
  else if negb (writes (s_mode o)) then hthrow
  else if negb (is_flag (s_flag o) MDefine) then hthrow
  else hrun heach h_define_one (seq 0 (List.length (s_atts o))); hset_gdef.
(** 984-1010 *)
Definition h_define_save : H unit :=
  hdo o <- hobj;
  if writes (s_mode o) && negb (s_gdef o) then
    match s_flag o with
    | MData => hrun hcheck LRedef; hrun hset_flag MDefine; hrun h_define_global_attributes; hrun hcheck LEnddef; hset_flag MData
    | MDefine => h_define_global_attributes
    | MUndefined => hret tt
    end
  else hret tt.
(** .hh 1475-1558 *)
Definition h_update (old new : string) (t : nctype) (v : bytes) : H unit :=
  hdo o <- hobj;
  if match s_mode o with ORead => true | _ => false end then hthrow
  else
  hrun (if is_flag (s_flag o) MData then hret tt
       else hdo e <- hcall LEnddef;
            match e with None | Some ENotInDefine => hset_flag MData | Some _ => hthrow end);
  hdo o <- hobj;
  match position (fun m => String.eqb (m_name m) old) (s_atts o) with
  | None => hthrow
  | Some i =>
      match nth_error (s_atts o) i with
      | None => hthrow
      | Some m =>
          if negb (m_written m) then hthrow
          else match update_matt m new t v with
               | None => hthrow
               | Some m' =>
                   hrun hset_atts (upd (s_atts o) i m');
                   hrun (if String.eqb old new then hret tt else hcheck (LRename old new));
                   hrun hcheck (LPutGatt (to_att m'));
                   h_file_changes
               end
      end
  end.
(** 1080-1088, 1091-1135 *)
Definition h_last_modified (date time : bytes) : H unit :=
  hrun h_update "last_modified_date" "last_modified_date" TChar date;
  h_update "last_modified_time" "last_modified_time" TChar time.
Definition h_last_modified_save (date time : bytes) : H unit :=
  hdo o <- hobj;
  if match s_mode o with ORead => true | _ => false end || negb (s_changed o) then hret tt
  else match s_flag o with
       | MDefine =>
           hdo e <- hcall LEnddef;
           hdo was_define <- (match e with None => hret true | Some ENotInDefine => hret false | Some _ => hthrow end);
           hrun hset_flag MData;
           hrun h_last_modified date time;
           if (was_define : bool) then hrun hcheck LRedef; hset_flag MDefine else hret tt
       | MData =>
           hdo e <- hcall LEnddef;
           hrun (match e with None | Some ENotInDefine => hret tt | Some _ => hthrow end);
           h_last_modified date time
       | MUndefined => hret tt
       end.
(** 293-311 *)
Definition h_close (date time : bytes) : H unit :=
  hrun h_define_save;
  hrun h_last_modified_save date time;
  hrun hcheck LClose;
  hset_flag MUndefined.

(** 464-566, 762-779, 782-794, 838-861, 864-928 *)
Definition h_add_var (p : string * bytes) : H unit :=
  hdo o <- hobj;
  if existsb (fun w => String.eqb (w_name w) (fst p)) (s_vars o) then hthrow
  else hset_vars (s_vars o ++ [mk_mvar (fst p) None [new_matt "unit" TChar (snd p)]]).
Definition h_define_var (i : nat) : H unit :=
  hdo o <- hobj;
  match nth_error (s_vars o) i with
  | None => hret tt
  | Some w => match w_id w with
              | Some _ => hret tt
              | None => hdo id <- hinquire (fun c => List.length (c_vars c));
                        hrun hcheck (LDefVar (w_name w));
                        hset_vars (upd (s_vars o) i (mk_mvar (w_name w) (Some id) (w_atts w)))
              end
  end.
Definition h_define_vatts (w : mvar) : H unit :=
  heach (fun m => match w_id w with Some id => hcheck (LPutVatt id (to_att m)) | None => hthrow end) (w_atts w).
Definition h_register_var_id (i : nat) : H unit :=
  hdo o <- hobj;
  match nth_error (s_vars o) i with
  | None => hret tt
  | Some w => match w_id w with
              | Some _ => hret tt
              | None => hdo id <- hinquire (fun c => position (fun v => String.eqb (v_name v) (w_name w)) (c_vars c));
                        match id with
                        | Some k => hset_vars (upd (s_vars o) i (mk_mvar (w_name w) (Some k) (w_atts w)))
                        | None => hthrow
                        end
              end
  end.
Definition h_register_vatts (i : nat) : H unit :=
  hdo o <- hobj;
  match nth_error (s_vars o) i with
  | None => hret tt
  | Some w =>
      hdo file <- hinquire (fun c => match w_id w with
                                    | Some k => match nth_error (c_vars c) k with Some v => v_atts v | None => [] end
                                    | None => []
                                    end);
      hdo l <- hlift (register_names 256 (w_atts w) (firstn 10 file));
      hdo l' <- hlift (mapr (read_value file) l);
      hset_vars (upd (s_vars o) i (mk_mvar (w_name w) (w_id w) l'))
  end.
(** 64-171 *)
Definition h_register (vs : list (string * bytes)) : H unit :=
  hrun heach h_add_var vs;
  hdo o <- hobj;
  hrun (if is_flag (s_flag o) MDefine then hret tt else hrun hcheck LRedef; hset_flag MDefine);
  hdo o <- hobj;
  let all := seq 0 (List.length (s_vars o)) in
  if writes (s_mode o) then
    hrun heach h_define_var all;
    hdo o <- hobj;
    hrun heach h_define_vatts (s_vars o);
    hrun hcheck LEnddef;
    hrun hset_flag MData;
    h_file_changes
  else
    hdo n <- hinquire (fun c => List.length (c_vars c));
    if (n <? List.length (s_vars o))%nat then hthrow
    else hrun heach h_register_var_id all; heach h_register_vatts all.
(** 3286-3310, 344-393, 314-341 *)
Definition h_get_variable (n : string) : H mvar :=
  hdo o <- hobj;
  match find (fun w => String.eqb (w_name w) n) (s_vars o) with Some w => hret w | None => hthrow end.
Definition h_write (frame value : Z) (names : list string) : H unit :=
  hrun h_define_save;
  hrun heach (fun n => hdo w <- h_get_variable n; hcheck (LPutVar (w_id w) frame value)) names;
  h_file_changes.
Definition h_read (names : list string) : H unit :=
  heach (fun n => hdo w <- h_get_variable n; hcheck (LGetVar (w_id w))) names.
Definition operation (o : op) : H unit :=
  match o with
  | Register vs => h_register vs
  | Write f x ns => h_write f x ns
  | Read ns => h_read ns
  | WriteAtt n t v => h_write_global_attribute n t v
  | UpdateAtt a b t v => h_update a b t v
  end.
(** 174-290 *)
Definition h_open (m : omode) (info hash descr dirty date time : bytes) : H unit :=
  hrun hcheck (LOpen m);
  if writes m then hupd (fun _ => mk_session m MDefine false false (default_atts info hash descr dirty date time) [])
  else hdo file <- hinquire c_gatts;
       hdo l <- hlift (register_names 257 [] (firstn 30 file));
       hdo l' <- hlift (mapr (read_value file) l);
       hupd (fun _ => mk_session m MDefine false false l' []).

(** ** Whole programs *)

(** The version of the library, the same for all processes; the clock of a process
    in its run number [r], when it opens the file and when it closes it. *)
Record build := mk_build { b_info : bytes; b_hash : bytes; b_descr : bytes; b_dirty : bytes }.
Record stamp := mk_stamp { t_date : bytes; t_time : bytes }.
Record watch := mk_watch { at_open : nat -> stamp; at_close : nat -> stamp }.

Fixpoint each_op (os : list op) (outs : list (res unit)) (x : proc) (k : proc -> list (res unit) -> prog) : prog :=
  match os with
  | [] => k x outs
  | o :: os' => operation o x (fun x' a => each_op os' (a :: outs) x' k)
  end.
(** A run: the file is opened, used, and closed; then the object is gone.  If the
    constructor throws there is no object and the program goes on with the next run.
    If [close] throws, the destructor calls it again and the program ends.  The
    object of the last run, if there is one, is still there at the end.  Outcomes are
    collected, the last one first. *)
Record visit := mk_visit { r_mode : omode; r_ops : list op }.
Definition no_object : session := mk_session ORead MUndefined false false [] [].
Definition gone (x : proc) : proc := mk_proc no_object (p_lib x).
Definition open_visit (b : build) (w : watch) (r : nat) (m : omode) : H unit :=
  h_open m (b_info b) (b_hash b) (b_descr b) (b_dirty b) (t_date (at_open w r)) (t_time (at_open w r)).
Definition last_visit (b : build) (w : watch) (r : nat) (last : option visit) (outs : list (res unit)) (x : proc) : prog :=
  match last with
  | None => Fin x (rev outs)
  | Some u => open_visit b w r (r_mode u) x (fun x' a =>
                match a with
                | Ok _ => each_op (r_ops u) (a :: outs) x' (fun x2 outs2 => Fin x2 (rev outs2))
                | _ => Fin (gone x') (rev (a :: outs))
                end)
  end.
Fixpoint program (b : build) (w : watch) (r : nat) (rs : list visit) (last : option visit) (outs : list (res unit)) (x : proc) : prog :=
  match rs with
  | [] => last_visit b w r last outs x
  | u :: rs' =>
      open_visit b w r (r_mode u) x (fun x' a =>
        match a with
        | Ok _ =>
            each_op (r_ops u) (a :: outs) x' (fun x2 outs2 =>
              h_close (t_date (at_close w r)) (t_time (at_close w r)) x2 (fun x3 c =>
                match c with
                | Ok _ => program b w (S r) rs' last (c :: outs2) (gone x3)
                | _ => Fin (gone x3) (rev (c :: outs2))
                end))
        | _ => program b w (S r) rs' last (a :: outs) (gone x')
        end)
  end.
(** A process before the program begins. *)
Definition fresh : proc := mk_proc no_object None.
