(** The processes of a parallel program that register collections in a NetCDF file,
    each with its part of the domain (file_io_netcdf.cc:64-171, 467-862, 1227-1274,
    built with MPI and PnetCDF).

    DimModel.v has one process, which is told how many pixels a local collection has
    on all processes together and at which positions its own pixels are.  Here every
    process has its own object and its own copy of the header of the file, and the
    processes find these numbers out: [comm.sum] and [comm.cumulative_sum] are
    collective calls of MPI, and [ncmpi_redef], [ncmpi_enddef], [ncmpi_def_dim] and
    [ncmpi_def_var] are collective calls of PnetCDF.  A call returns when all
    processes have made it.  The processes have nothing else in common.  PnetCDF asks
    for the same arguments on all processes; if they differ, or if the processes make
    different calls, the program is stuck.

    Opening and closing and the attributes are in HeadModel.v, which leaves out what
    is modelled here. *)
From Coq Require Import String.
From Verif Require Import Base GridModel StridedModel LayoutModel CommModel NetCDFModel DimModel.
Local Open Scope Z_scope.
Local Open Scope list_scope.

(** ** Calls *)

(** The header as a process knows it: whether the file may be changed, whether it is
    in define mode. *)
Record head := mk_head { h_rw : bool; h_define : bool; h_nc : nclib }.
(** A number is contributed to [CSum] and [CScan]. *)
Inductive ccall :=
| CSum (n : Z)
| CScan (n : Z)
| CRedef
| CEnddef
| CDefDim (d : ncdim)
| CDefVar (name : string) (ids : list nat).
Definition given (c : ccall) : Z := match c with CSum n => n | CScan n => n | _ => 0 end.
(** What process [rank] gets when the processes make the calls [all]: a number, or
    [None] for an error; and the header afterwards. *)
Definition answer (all : list ccall) (rank : nat) (c : ccall) (h : head) : option Z * head :=
  match c with
  | CSum _ => (Some (zsum (map given all)), h)
  | CScan _ => (Some (cumulative_sum (map given all) rank), h)
  | CRedef => if h_define h || negb (h_rw h) then (None, h) else (Some 0, mk_head (h_rw h) true (h_nc h))
  | CEnddef => if h_define h then (Some 0, mk_head (h_rw h) false (h_nc h)) else (None, h)
  | CDefDim d =>
      if h_define h then
        match lib_def_dim d (h_nc h) with
        | Some (f, id) => (Some (Z.of_nat id), mk_head (h_rw h) true f)
        | None => (None, h)
        end
      else (None, h)
  | CDefVar n ids =>
      if h_define h then
        match lib_def_var n ids (h_nc h) with
        | Some (f, id) => (Some (Z.of_nat id), mk_head (h_rw h) true f)
        | None => (None, h)
        end
      else (None, h)
  end.

(** ** Processes *)

(** A process: its object, [netcdf_mode] being [DefineMode], its header. *)
Record proc := mk_proc { p_obj : fobj; p_flag : bool; p_head : head }.
(** What it still has to do. *)
Inductive prog :=
| Fin (x : proc) (outcomes : list (res unit))
| Call (c : ccall) (h : head) (k : option Z -> head -> prog).

(** The calls of two processes that belong together. *)
Definition same_call (c d : ccall) : Prop :=
  match c, d with
  | CSum _, CSum _ => True
  | CScan _, CScan _ => True
  | _, _ => c = d
  end.
(** All processes make their call. *)
Record caller := mk_caller { k_call : ccall; k_head : head; k_next : option Z -> head -> prog }.
Definition calling (x : caller) : prog := Call (k_call x) (k_head x) (k_next x).
Definition returned (all : list ccall) (rank : nat) (x : caller) : prog :=
  let a := answer all rank (k_call x) (k_head x) in k_next x (fst a) (snd a).
Fixpoint returned_from (all : list ccall) (rank : nat) (l : list caller) : list prog :=
  match l with
  | [] => []
  | x :: r => returned all rank x :: returned_from all (S rank) r
  end.
Inductive pstep : list prog -> list prog -> Prop :=
| pstep_call x xs :
    Forall (fun y => same_call (k_call x) (k_call y)) xs ->
    pstep (map calling (x :: xs)) (returned_from (map k_call (x :: xs)) 0 (x :: xs)).

(** ** Functions of the object *)

Definition C (A : Type) : Type := proc -> (proc -> res A -> prog) -> prog.
Definition cret {A} (a : A) : C A := fun x k => k x (Ok a).
Definition cthrow {A} : C A := fun x k => k x (Err FileIOError).
Definition clift {A} (r : res A) : C A := fun x k => k x r.
Definition cbind {A B} (m : C A) (f : A -> C B) : C B :=
  fun x k => m x (fun x' a => match a with Ok v => f v x' k | Err e => k x' (Err e) | UB => k x' UB end).
Notation "'cdo' x <- a ; b" := (cbind a (fun x => b)) (at level 200, x pattern, a at level 100, b at level 200).
Notation "'crun' a ; b" := (cbind a (fun _ => b)) (at level 200, a at level 100, b at level 200).
Fixpoint ceach {A} (f : A -> C unit) (l : list A) : C unit :=
  match l with [] => cret tt | a :: r => crun f a; ceach f r end.
(** Parts without calls are those of DimModel.v. *)
Definition cobj {A} (m : M fobj A) : C A :=
  fun x k => let '(o, r) := m (p_obj x) in k (mk_proc o (p_flag x) (p_head x)) r.
Definition cget : C fobj := fun x k => k x (Ok (p_obj x)).
Definition cflag : C bool := fun x k => k x (Ok (p_flag x)).
Definition cset_flag (b : bool) : C unit := fun x k => k (mk_proc (p_obj x) b (p_head x)) (Ok tt).
Definition ccall_ (c : ccall) : C Z :=
  fun x k => Call c (p_head x) (fun a h => k (mk_proc (p_obj x) (p_flag x) h)
                                            (match a with Some n => Ok n | None => Err FileIOError end)).

(** 588-630, 633-679: the dimensions of a local field need the number of pixels on
    all processes (1232). *)
Definition c_dims_local (r : rvar) : C (list nat) :=
  cdo total <- ccall_ (CSum (l_npix (nf_lay (rv_field r))));
  cobj (add_dims_local total (rv_name r) (rv_field r)).
Definition c_local_var (pixels : list Z) (r : rvar) : C unit :=
  cdo o <- cget;
  if has (rv_name r) (get_names o) then cthrow
  else match rv_hist r with
       | None =>
           if has (rv_name r) (o_subs o) then cret tt
           else cdo a <- cobj (find_dim frame_dim);
                cdo c <- c_dims_local r;
                cdo v <- cobj (add_var r false (a :: c));
                clift (consistency_check_local v (rv_field r) pixels)
       | Some nb =>
           cdo a <- cobj (find_dim frame_dim);
           cdo b <- cobj (add_dim (hist_dim nb));
           cdo c <- c_dims_local r;
           cdo v <- cobj (add_var r false (a :: b :: c));
           crun cobj (add_subs r);
           clift (consistency_check_local v (rv_field r) pixels)
       end.
(** 698-742 [register_lfc_to_gfc_local_pixels]: the field of pixel positions and its
    values; [ids] are the pixels of the collection on this process. *)
Definition c_pixels (writing : bool) (lname : string) (ids : list Z) : C (nfield * list Z) :=
  cdo p <- cobj (register_pixels lname);
  let empty := repeat (-1) (Z.to_nat (l_npix (nf_lay p))) in
  if writing then
    cdo end_ <- ccall_ (CScan (Z.of_nat (length ids)));
    cdo l <- clift (fill_offsets ids (end_ - Z.of_nat (length ids)) empty);
    cret (p, l)
  else cret (p, empty).
(** 576-680 [register_field_collection_local] *)
Definition c_local_coll (writing : bool) (lname : string) (ids : list Z) (vars : list rvar) : C unit :=
  cdo (p, pixels) <- c_pixels writing lname ids;
  crun cobj (fun o => register_global_var (hidden_names o) (mk_rvar lname None p []) o);
  ceach (c_local_var pixels) vars.
(** A collection as one process has it; in [CLocal] the pixels of the collection. *)
Inductive cop :=
| CGlobal (g : gcoll) (vars : list rvar)
| CLocal (lname : string) (ids : list Z) (vars : list rvar).
Definition c_register (writing : bool) (o : cop) : C unit :=
  match o with
  | CGlobal g vars => cobj (register_global_coll g vars)
  | CLocal n ids vars => c_local_coll writing n ids vars
  end.

(** 745-759 [define_netcdf_dimensions], 762-778 [define_netcdf_variables] *)
Definition c_define_dim (i : nat) : C unit :=
  cdo o <- cget;
  match nth_error (o_dims o) i with
  | None => cret tt
  | Some x =>
      match do_id x with
      | Some _ => cret tt
      | None => cdo id <- ccall_ (CDefDim (do_dim x));
                cobj (fun o => (set_dims (upd (o_dims o) i (mk_dimobj (do_dim x) (Some (Z.to_nat id)))) o, Ok tt))
      end
  end.
Definition c_define_var (i : nat) : C unit :=
  cdo o <- cget;
  match nth_error (o_vars o) i with
  | None => cret tt
  | Some x =>
      match vo_id x with
      | Some _ => cret tt
      | None =>
          match ids_at o (vo_refs x) with
          | None => cthrow
          | Some ids =>
              cdo id <- ccall_ (CDefVar (v_name (vo_var x)) ids);
              cobj (fun o => (set_vars (upd (o_vars o) i (mk_varobj (vo_var x) (vo_hidden x) (vo_refs x) (Some (Z.to_nat id)))) o, Ok tt))
          end
      end
  end.
(** 797-862: inquiries look at the header of the process. *)
Definition c_find_all : C unit :=
  fun x k => let '((o, f), r) := find_all (p_obj x, h_nc (p_head x)) in
             k (mk_proc o (p_flag x) (mk_head (h_rw (p_head x)) (h_define (p_head x)) f)) r.
(** 64-171 [register_field_collection] *)
Definition c_op (writing : bool) (o : cop) : C unit :=
  crun c_register writing o;
  cdo define <- cflag;
  crun (if define then cret tt else crun ccall_ CRedef; cset_flag true);
  if writing then
    cdo o <- cget;
    crun ceach c_define_dim (seq 0 (length (o_dims o)));
    cdo o <- cget;
    crun ceach c_define_var (seq 0 (length (o_vars o)));
    crun ccall_ CEnddef;
    cset_flag false
  else c_find_all.

(** The program of a process: it goes on after an exception.  Outcomes are
    collected, the last one first. *)
Fixpoint program (writing : bool) (ops : list cop) (outs : list (res unit)) (x : proc) : prog :=
  match ops with
  | [] => Fin x (rev outs)
  | o :: ops' => c_op writing o x (fun x' a => program writing ops' (a :: outs) x')
  end.
(** 174-290: a process that has created a file, or opened the file [f], for changing
    it or not. *)
Definition created : proc := mk_proc new_obj true (mk_head true true empty_lib).
Definition opened (rw : bool) (f : nclib) : proc := mk_proc new_obj true (mk_head rw false f).
