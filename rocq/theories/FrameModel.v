(** Frames of a file (file_io_base.cc, file_io_base.hh, file_io_netcdf.cc).

    The only state is the number of frames.  The data transfer itself is in
    NetCDFModel.v; here an access ends with the frame number that is handed to
    the NetCDF library. *)
From Verif Require Import Base.
Local Open Scope Z_scope.
Local Open Scope list_scope.

(** file_io_base.cc 45-67 [FileIOBase::operator[]] *)
Definition frame_at (nb k : Z) : res Z :=
  let t := if k <? 0 then nb + k else k in
  if (k <? 0) && (t <? 0) then Err FileIOError
  else if nb <? t then Err FileIOError
  else Ok t.

(** What a program does with the frames of a file.  [Append] is [append_frame]
    (file_io_base.cc 70-74), [At] is [operator[]]; both produce a handle.  [Use]
    reads or writes through a handle (file_io_base.cc 99-113), [Direct] calls
    [read(frame)] or [write(frame)]. *)
Inductive fop := Append | At (k : Z) | Use (h : Z) | Direct (k : Z).

(** file_io_netcdf.cc 429-452 [handle_frame] *)
Definition handle_frame (k nb : Z) : res Z :=
  let f := if k <? 0 then nb + k else k in
  if nb <=? f then Err FileIOError else Ok f.
(** 2528-2692 [NetCDFVarBase::write], [read] up to the library call: 2712-2718,
    2781-2787 refuse negative starts. *)
Definition accessed (k nb : Z) : res Z :=
  let! f := handle_frame k nb in
  if f <? 0 then Err FileIOError else Ok f.

(** The new number of frames and the handle or the frame accessed. *)
Definition fstep (nb : Z) (o : fop) : Z * res Z :=
  match o with
  | Append => (nb + 1, Ok nb)
  | At k => (nb, frame_at nb k)
  | Use h => (nb, accessed h nb)
  | Direct k => (nb, accessed k nb)
  end.
(** A file opened with [nb] frames (174-240: zero for a new file, the length of
    the unlimited dimension otherwise) after some operations. *)
Fixpoint frun (nb : Z) (h : list fop) : Z :=
  match h with [] => nb | o :: t => frun (fst (fstep nb o)) t end.

(** file_io_base.hh 449-545: a loop over all frames; handles in order.  The end
    is fixed when the loop starts. *)
Fixpoint visit (nb : Z) (i : Z) (n : nat) : list (res Z) :=
  match n with O => [] | S m => frame_at nb i :: visit nb (i + 1) m end.
Definition frames (nb : Z) : list (res Z) := visit nb 0 (Z.to_nat nb).

(** 396-421 [write_no_frame]: variables without frame dimension ([framed]
    tells which have one) are written as frame 0. *)
Definition write_no_frame (nb : Z) (framed : list bool) : res unit :=
  if existsb (fun b => b) framed then Err FileIOError
  else fold_left (fun r _ => let! _ := r in let! _ := accessed 0 nb in Ok tt) framed (Ok tt).
