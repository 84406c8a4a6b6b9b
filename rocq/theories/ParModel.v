(** The processes of a parallel program that uses a NetCDF file, each at its own
    pace (file_io_netcdf.cc, built with MPI and PnetCDF).

    SessionModel.v lets all processes execute an operation together, one after the
    other.  Here every process has its own state and its own program; the steps of
    different processes interleave in any order, and processes wait for each other
    only where PnetCDF and MPI say that a call is collective.

    A collective call starts on a process when all processes have made the same
    call, and returns when all have done their part; between that, the parts are
    done in any order.  The library may wait less than this (it does not here), so
    a program that never gets stuck here never does.  The length of the unlimited
    dimension is known to all processes at once.  The calls that write attributes
    (AttModel.v) and define dimensions and variables (DimModel.v) are left out. *)
From Coq Require Import String.
From Verif Require Import Base CIntModel GridModel StridedModel LayoutModel CommModel FrameModel NetCDFModel SessionModel.
Local Open Scope Z_scope.
Local Open Scope list_scope.

(** ** Programs of processes *)

(** The calls for which the processes wait: opening (beginning and end), closing and
    leaving define mode; [MPI_Scan]; the transfer of a global variable (beginning
    and end); [ncmpi_begin_indep_data] and [ncmpi_end_indep_data]. *)
Inductive collective :=
| COpen (m : smode)
| COpened (m : smode)
| CClose
| CEnddef
| CScan
| CTransfer (put : bool) (name : string)
| CTransferred (put : bool) (name : string)
| CBeginIndep
| CEndIndep.

(** The file: positions of local pixels, and values. *)
Record world (A : Type) := mk_world { w_hfile : ncfile Z; w_file : ncfile A }.
Arguments mk_world {A} _ _.
Arguments w_hfile {A} _.
Arguments w_file {A} _.

Section Programs.
Context {A : Type}.
Notation world := (world A).

(** ** The state of a process *)

(** As in SessionModel.v, but of one process; [r_indep] is the mode of the library:
    collective transfers are refused between [ncmpi_begin_indep_data] and
    [ncmpi_end_indep_data]. *)
Record rank := mk_rank {
  r_id : nat;
  r_mode : smode;
  r_setup : setup;
  r_nb : Z;
  r_read : list string;
  r_written : list string;
  r_pos : string -> list Z;
  r_mem : string -> Z -> list A;
  r_indep : bool
}.
Definition with_indep (b : bool) (r : rank) : rank :=
  mk_rank (r_id r) (r_mode r) (r_setup r) (r_nb r) (r_read r) (r_written r) (r_pos r) (r_mem r) b.
Definition set_nb (n : Z) (r : rank) : rank :=
  mk_rank (r_id r) (r_mode r) (r_setup r) n (r_read r) (r_written r) (r_pos r) (r_mem r) (r_indep r).
Definition set_mem (m : string -> Z -> list A) (r : rank) : rank :=
  mk_rank (r_id r) (r_mode r) (r_setup r) (r_nb r) (r_read r) (r_written r) (r_pos r) m (r_indep r).
Definition no_nfield : nfield := mk_nfield "" "" (mk_layout [] 0 0 ColMajor [] [] 0 0) [] [].
Definition no_part : part := mk_part no_nfield (fun _ => []) (fun _ => no_nfield).
Definition own_part (r : rank) : part := nth (r_id r) (su_parts (r_setup r)) no_part.

(** What a process still has to do: nothing, then there are its state and the
    outcomes of its operations; a collective call to which it contributes a number
    and from which it gets the numbers of all processes; an access to the file. *)
Inductive prog : Type :=
| Ret (r : rank) (outcomes : list (res unit))
| Sync (c : collective) (arg : Z) (k : list Z -> prog)
| Act (f : world -> world * prog).

(** All processes of the program. *)
Definition config : Type := world * list prog.
(** One process accesses the file, or all of them make the same call. *)
Inductive step : config -> config -> Prop :=
| step_act w before f after w' p :
    f w = (w', p) -> step (w, before ++ Act f :: after) (w', before ++ p :: after)
| step_sync w c (calls : list (Z * (list Z -> prog))) :
    calls <> [] ->
    step (w, map (fun x => Sync c (fst x) (snd x)) calls)
         (w, map (fun x => snd x (map fst calls)) calls).

(** A function of the object, as run by one process: [k] is what comes after it,
    with the outcome. *)
Definition cont : Type := rank -> res unit -> prog.
Definition action : Type := rank -> cont -> prog.
Definition pthen (p g : action) : action :=
  fun r k => p r (fun r' a => match a with Ok _ => g r' k | _ => k r' a end).

(** ** Transfers *)

(** A collective transfer. *)
Definition transfer {B} (put : bool) (name : string) (r : rank) (f : world -> world * res B) (k : res B -> prog) : prog :=
  if r_indep r then k (Err FileIOError)
  else Sync (CTransfer put name) 0 (fun _ =>
       Act (fun w => (fst (f w), Sync (CTransferred put name) 0 (fun _ => k (snd (f w)))))).

(** 2528-2553, 2610-2637: what is passed to the library. *)
Record box := mk_box { b_start : list Z; b_count : list Z; b_stride : list Z; b_imap : list Z }.
Definition global_box (nb k : Z) (v : ncvar) (h : Z) (f : nfield) : res box :=
  let! frame := handle_frame k nb in
  let! start := get_start_global v f frame h in
  let! count := get_count_global v f in
  let! stride := get_nc_stride v in
  let! imap := get_nc_imap v f in
  Ok (mk_box start count stride imap).
Definition put_box {B} (v : ncvar) (b : box) (p : Z) (buf : list B) (file : ncfile B) : res (ncfile B) :=
  put_varm v (b_start b) (b_count b) (b_stride b) (b_imap b) p buf file.
Definition get_box {B} (v : ncvar) (b : box) (p : Z) (buf : list B) (file : ncfile B) : res (list B) :=
  get_varm v (b_start b) (b_count b) (b_stride b) (b_imap b) file p buf.

(** A file that was opened for reading refuses. *)
Definition put_value (mode : smode) (v : ncvar) (b : box) (p : Z) (buf : list A) (w : world) : world * res unit :=
  match mode with
  | Reading => (w, Err FileIOError)
  | _ => match put_box v b p buf (w_file w) with
         | Ok f => (mk_world (w_hfile w) f, Ok tt)
         | e => (w, failed e)
         end
  end.
Definition put_position (v : ncvar) (b : box) (buf : list Z) (w : world) : world * res unit :=
  match put_box v b 0 buf (w_hfile w) with
  | Ok f => (mk_world f (w_file w), Ok tt)
  | e => (w, failed e)
  end.

(** 2554-2606: the vectors of all requests are made first.  The pointer into the
    buffer advances by the number of elements transferred.  An exception leaves the
    library in independent mode. *)
Definition request_box (v : ncvar) (f : nfield) (frame h : Z) (stride imap : list Z) (o : Z) : res box :=
  let! start := mapm (start_local1 v frame h o) (v_dims v) in
  let! count := mapm (count_local1 f) (v_dims v) in
  Ok (mk_box start count stride imap).
Definition request_boxes (nb k : Z) (v : ncvar) (h : Z) (f : nfield) (pixels : list Z) : res (list box) :=
  let! frame := handle_frame k nb in
  if frame <? 0 then Err FileIOError else
  let! stride := get_nc_stride v in
  let! imap := get_nc_imap v f in
  mapm (request_box v f frame h stride imap) (requests pixels).
Fixpoint put_each (v : ncvar) (bs : list box) (p : Z) (buf : list A) (r : rank) (k : cont) : prog :=
  match bs with
  | [] => Sync CEndIndep 0 (fun _ => k (with_indep false r) (Ok tt))
  | b :: bs' => Act (fun w => (fst (put_value (r_mode r) v b p buf w),
                               match snd (put_value (r_mode r) v b p buf w) with
                               | Ok _ => put_each v bs' (p + get_nb_from_shape (b_count b)) buf r k
                               | e => k r e
                               end))
  end.
Fixpoint get_each (v : ncvar) (bs : list box) (p : Z) (buf : list A) (done : list A -> rank -> rank) (r : rank) (k : cont) : prog :=
  match bs with
  | [] => Sync CEndIndep 0 (fun _ => k (with_indep false (done buf r)) (Ok tt))
  | b :: bs' => Act (fun w => (w, match get_box v b p buf (w_file w) with
                                  | Ok buf' => get_each v bs' (p + get_nb_from_shape (b_count b)) buf' done r k
                                  | e => k r (failed e)
                                  end))
  end.

(** 2528-2607 [NetCDFVarBase::write] *)
Definition write_entry (fr : Z) (v : svar) (h : Z) : action := fun r k =>
  let name := v_name (sv_var v) in
  let f := pt_field (own_part r) name in
  match sv_local v with
  | None =>
      match global_box (r_nb r) fr (sv_var v) h f with
      | Ok b => transfer true name r (put_value (r_mode r) (sv_var v) b 0 (r_mem r name h)) (k r)
      | e => k r (failed e)
      end
  | Some l =>
      match request_boxes (r_nb r) fr (sv_var v) h f (r_pos r l) with
      | Ok bs => Sync CBeginIndep 0 (fun _ => put_each (sv_var v) bs 0 (r_mem r name h) (with_indep true r) k)
      | e => k r (failed e)
      end
  end.
(** 2610-2692 [NetCDFVarBase::read]: the vectors are made in independent mode. *)
Definition put_mem (name : string) (h : Z) (m : list A) (r : rank) : rank :=
  set_mem (fun n e => if String.eqb n name && (e =? h) then m else r_mem r n e) r.
Definition read_entry (fr : Z) (v : svar) (h : Z) : action := fun r k =>
  let name := v_name (sv_var v) in
  let f := pt_field (own_part r) name in
  match sv_local v with
  | None =>
      match global_box (r_nb r) fr (sv_var v) h f with
      | Ok b => transfer false name r (fun w => (w, get_box (sv_var v) b 0 (r_mem r name h) (w_file w)))
                  (fun a => match a with Ok m => k (put_mem name h m r) (Ok tt) | e => k r (failed e) end)
      | e => k r (failed e)
      end
  | Some l =>
      match handle_frame fr (r_nb r) with
      | Ok _ =>
          Sync CBeginIndep 0 (fun _ =>
            match request_boxes (r_nb r) fr (sv_var v) h f (r_pos r l) with
            | Ok bs => get_each (sv_var v) bs 0 (r_mem r name h) (put_mem name h) (with_indep true r) k
            | e => k (with_indep true r) (failed e)
            end)
      | e => k r (failed e)
      end
  end.
(** 3188-3219 *)
Fixpoint each_entry (f : Z -> action) (h : Z) (n : nat) : action :=
  match n with
  | O => fun r k => k r (Ok tt)
  | S m => pthen (f h) (each_entry f (h + 1) m)
  end.

(** ** Hidden variables *)

(** 321-331, 371-379 *)
Definition load (fr : Z) (l : string) : action := fun r k =>
  if memberb l (r_read r) then k r (Ok tt)
  else
    let v := su_hidden (r_setup r) l in
    match global_box (r_nb r) fr v 0 (pt_sub (own_part r)) with
    | Ok b => transfer false l r (fun w => (w, get_box v b 0 (r_pos r l) (w_hfile w)))
                (fun a => match a with
                          | Ok m => k (mk_rank (r_id r) (r_mode r) (r_setup r) (r_nb r) (r_read r ++ [l]) (r_written r)
                                         (set_at l m (r_pos r)) (r_mem r) (r_indep r)) (Ok tt)
                          | e => k r (failed e)
                          end)
    | e => k r (failed e)
    end.
(** 358-368 *)
Definition store (l : string) : action := fun r k =>
  if memberb l (r_written r) then k r (Ok tt)
  else
    let v := su_hidden (r_setup r) l in
    match global_box (r_nb r) 0 v 0 (pt_sub (own_part r)) with
    | Ok b => transfer true l r (put_position v b (r_pos r l))
                (fun a => match a with
                          | Ok _ => k (mk_rank (r_id r) (r_mode r) (r_setup r) (r_nb r) (r_read r) (r_written r ++ [l])
                                         (r_pos r) (r_mem r) (r_indep r)) (Ok tt)
                          | e => k r e
                          end)
    | e => k r (failed e)
    end.

(** ** [write] and [read]: 343-386, 313-335 *)
Definition before_write (fr : Z) (v : svar) : action := fun r k =>
  match sv_local v with
  | None => k r (Ok tt)
  | Some l => match r_mode r with
              | Creating => store l r k
              | Appending => load fr l r k
              | Reading => k r (Ok tt)
              end
  end.
Definition write_name (fr : Z) (name : string) : action := fun r k =>
  match get_variable (su_vars (r_setup r)) name with
  | None => k r (Err FileIOError)
  | Some v => pthen (before_write fr v) (each_entry (write_entry fr v) 0 (entries (sv_var v))) r k
  end.
Definition before_read (v : svar) : action := fun r k =>
  match sv_local v with None => k r (Ok tt) | Some l => load 0 l r k end.
Definition read_name (fr : Z) (name : string) : action := fun r k =>
  match get_variable (su_vars (r_setup r)) name with
  | None => k r (Err FileIOError)
  | Some v => pthen (before_read v) (each_entry (read_entry fr v) 0 (entries (sv_var v))) r k
  end.
Fixpoint each_name (f : string -> action) (names : list string) : action :=
  match names with
  | [] => fun r k => k r (Ok tt)
  | n :: names' => pthen (f n) (each_name f names')
  end.

(** ** Opening *)

(** 698-742: the positions of the local pixels of a collection, which start after
    those of the processes of lower rank; -1 in a file that is opened. *)
Definition add_pos (l : string) (h : list Z) (r : rank) : rank :=
  mk_rank (r_id r) (r_mode r) (r_setup r) (r_nb r) (r_read r) (r_written r) (set_at l h (r_pos r)) (r_mem r) (r_indep r).
Definition register_coll (l : string) : action := fun r k =>
  let p := own_part r in
  let npix := l_npix (nf_lay (pt_sub p)) in
  match r_mode r with
  | Creating => Sync CScan (Z.of_nat (length (pt_ids p l))) (fun counts =>
                  match hidden_field counts (r_id r) npix (pt_ids p l) with
                  | Ok h => k (add_pos l h r) (Ok tt)
                  | e => k r (failed e)
                  end)
  | _ => k (add_pos l (repeat (-1) (Z.to_nat npix)) r) (Ok tt)
  end.
(** A new object in process [i]; opening and leaving define mode are collective,
    the number of frames is that in the file (245-258). *)
Definition own_mem (i : nat) (mem : string -> Z -> list (list A)) : string -> Z -> list A := fun n h => nth i (mem n h) [].
Definition new_rank (i : nat) (m : smode) (u : setup) (mem : string -> Z -> list (list A)) (nb : Z) : rank :=
  mk_rank i m u nb [] [] (fun _ => []) (own_mem i mem) false.
Definition leave_define : action := fun r k => Sync CEnddef 0 (fun _ => k r (Ok tt)).
Definition open_file (m : smode) (u : setup) (mem : string -> Z -> list (list A)) (reset : world -> world) : action := fun r k =>
  Sync (COpen m) 0 (fun _ => Act (fun w => (reset w,
  Sync (COpened m) 0 (fun _ => Act (fun w => (w,
    pthen (each_name register_coll (su_colls u)) leave_define (new_rank (r_id r) m u mem (recs (w_file w))) k)))))).

(** ** Whole programs, as in SessionModel.v *)
Definition operation (o : op A) : action := fun r k =>
  match o with
  | Create u mem hc c => open_file Creating u mem (fun _ => mk_world (mk_ncfile 0 hc) (mk_ncfile 0 c)) r k
  | Reopen append u mem => Sync CClose 0 (fun _ => open_file (if append then Appending else Reading) u mem (fun w => w) r k)
  | AppendFrame => k (set_nb (fst (fstep (r_nb r) Append)) r) (Ok tt)
  | Assign mem => k (set_mem (own_mem (r_id r) mem) r) (Ok tt)
  | Write fr names => each_name (write_name fr) names r k
  | Read fr names => each_name (read_name fr) names r k
  end.
(** The operations one after the other, also if some of them throw; [outs] are the
    outcomes so far, the last one first. *)
Fixpoint program (ops : list (op A)) (outs : list (res unit)) (r : rank) : prog :=
  match ops with
  | [] => Ret r (rev outs)
  | o :: ops' => operation o r (fun r' a => program ops' (a :: outs) r')
  end.
End Programs.
Arguments rank A : clear implicits.
Arguments prog A : clear implicits.
Arguments config A : clear implicits.
Arguments action A : clear implicits.
Arguments cont A : clear implicits.
