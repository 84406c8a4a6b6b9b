(** Element types of fields in NetCDF files (file_io_netcdf.hh:124-205,
    file_io_netcdf.cc:2230-2302, 2396-2428, 3217-3248), and the transfer of
    fields as bytes.

    NetCDFModel.v moves values of one type between memory and file; here memory is
    a list of bytes and every element has the size of its type.  The serial
    library ([nc_put_varm], [nc_get_varm] with [void *], file_io_netcdf.hh:106-112)
    does not convert: memory holds elements of the type of the variable in the
    file.  The version for MPI gets the type of the memory ([get_buftype],
    2116-2124) and is modelled by the function for that type only. *)
From Coq Require Import String.
From Verif Require Import Base CIntModel GridModel StridedModel LayoutModel FrameModel NetCDFModel.
Local Open Scope Z_scope.
Local Open Scope list_scope.

(** ** Types *)

(** The external types of NetCDF and the sizes of their elements. *)
Inductive nct := NcByte | NcChar | NcShort | NcInt | NcFloat | NcDouble | NcUbyte | NcUshort | NcUint | NcInt64 | NcUint64.
Definition ext_size (t : nct) : Z :=
  match t with
  | NcByte | NcChar | NcUbyte => 1
  | NcShort | NcUshort => 2
  | NcInt | NcFloat | NcUint => 4
  | NcDouble | NcInt64 | NcUint64 => 8
  end.
Definition nct_eqb (a b : nct) : bool :=
  match a, b with
  | NcByte, NcByte | NcChar, NcChar | NcShort, NcShort | NcInt, NcInt | NcFloat, NcFloat | NcDouble, NcDouble
  | NcUbyte, NcUbyte | NcUshort, NcUshort | NcUint, NcUint | NcInt64, NcInt64 | NcUint64, NcUint64 => true
  | _, _ => false
  end.

(** grid_common.hh:81-88: the element types; fields exist for all but [CChar]
    (field_typed.cc:755-759). *)
Inductive ctype := CChar | CInt | CUint | CIndex | CReal | CComplex.
(** Sizes that depend on the platform: [int] (also [unsigned int]) and
    [Eigen::Index]. *)
Record platform := mk_platform { sz_int : Z; sz_index : Z }.
Definition csize (P : platform) (c : ctype) : Z :=
  match c with CChar => 1 | CInt | CUint => sz_int P | CIndex => sz_index P | CReal => 8 | CComplex => 16 end.

(** file_io_netcdf.hh:131-151 [netcdf_signed_type], 153-173
    [netcdf_unsigned_type]; other sizes do not compile. *)
Definition netcdf_signed_type (size : Z) : nct :=
  if size =? 1 then NcByte else if size =? 2 then NcShort else if size =? 4 then NcInt
  else if size =? 8 then NcInt64 else NcUint64.
Definition netcdf_unsigned_type (size : Z) : nct :=
  if size =? 1 then NcUbyte else if size =? 2 then NcUshort else if size =? 4 then NcUint else NcUint64.
(** 175-197 [netcdf_type] with its specialisations, and 201-205 [MU_NC_CHAR],
    [MU_NC_INT], [MU_NC_UINT], [MU_NC_INDEX_T], [MU_NC_REAL]. *)
Definition mu_nc_char : nct := NcChar.
Definition mu_nc_int (P : platform) : nct := netcdf_signed_type (sz_int P).
Definition mu_nc_uint (P : platform) : nct := netcdf_unsigned_type (sz_int P).
Definition mu_nc_index (P : platform) : nct := netcdf_signed_type (sz_index P).
Definition mu_nc_real : nct := NcDouble.

(** file_io_netcdf.cc:2230-2260 [typeid_to_nc_type] *)
Definition typeid_to_nc_type (P : platform) (c : ctype) : res nct :=
  match c with
  | CChar => Ok mu_nc_char
  | CInt => Ok (mu_nc_int P)
  | CUint => Ok (mu_nc_uint P)
  | CIndex => Ok (mu_nc_index P)
  | CReal => Ok mu_nc_real
  | CComplex => Err FileIOError
  end.

(** The types of MPI, as the C types they stand for. *)
Inductive mpit := MpiChar | MpiShort | MpiInt | MpiFloat | MpiDouble | MpiUshort | MpiUnsigned | MpiLongLong | MpiUlongLong.
(** 2263-2300 [nc_type_to_mpi_datatype] *)
Definition nc_type_to_mpi (t : nct) : res mpit :=
  match t with
  | NcChar => Ok MpiChar
  | NcShort => Ok MpiShort
  | NcInt => Ok MpiInt
  | NcFloat => Ok MpiFloat
  | NcDouble => Ok MpiDouble
  | NcUshort => Ok MpiUshort
  | NcUint => Ok MpiUnsigned
  | NcInt64 => Ok MpiLongLong
  | NcUint64 => Ok MpiUlongLong
  | NcByte | NcUbyte => Err FileIOError
  end.
(** Sizes of the C types; [short] has two bytes and [long long] eight on all
    platforms the library supports. *)
Definition mpi_size (P : platform) (m : mpit) : Z :=
  match m with
  | MpiChar => 1 | MpiShort | MpiUshort => 2 | MpiInt | MpiUnsigned => sz_int P
  | MpiFloat => 4 | MpiDouble | MpiLongLong | MpiUlongLong => 8
  end.

(** 2396-2428 [increment_buf_ptr]: bytes per element, by the type of the variable
    of the object; the case labels are distinct where the code compiles. *)
Definition element_bytes (P : platform) (t : nct) : res Z :=
  if nct_eqb t mu_nc_char then Ok 1
  else if nct_eqb t (mu_nc_int P) then Ok (sz_int P)
  else if nct_eqb t (mu_nc_uint P) then Ok (sz_int P)
  else if nct_eqb t (mu_nc_index P) then Ok (sz_index P)
  else if nct_eqb t mu_nc_real then Ok 8
  else Err FileIOError.

(** ** Registration *)

(** 3217-3248 [add_field_var], [add_state_field_var] within 467-573: as
    [register_global], and the type between the dimensions and the check. *)
Definition register_typed (P : platform) (seen : list Z) (hidden : bool) (hist : option Z) (name : string)
    (c : ctype) (f : nfield) : list Z * res (ncvar * nct) :=
  let '(s, r) := add_field_dims_global seen name f in
  (s, let! _ := r in
      let! t := typeid_to_nc_type P c in
      let! v := snd (register_global seen hidden hist name f) in
      Ok (v, t)).
(** 518-572: the loop over the names of a collection without state fields; it
    ends with the first exception. *)
Fixpoint register_fields (P : platform) (seen : list Z) (fs : list (ctype * nfield)) : res (list (ncvar * nct)) :=
  match fs with
  | [] => Ok []
  | (c, f) :: r =>
      let '(s, x) := register_typed P seen false None (nf_name f) c f in
      let! v := x in
      let! vs := register_fields P s r in
      Ok (v :: vs)
  end.

(** ** Memory as bytes *)
Definition bytes := list Z.
Definition bload (mem : bytes) (a e : Z) : res bytes :=
  if (a <? 0) || (Z.of_nat (length mem) <? a + e) then UB
  else Ok (firstn (Z.to_nat e) (skipn (Z.to_nat a) mem)).
Definition bstore (mem : bytes) (a : Z) (x : bytes) : res bytes :=
  if (a <? 0) || (Z.of_nat (length mem) <? a + Z.of_nat (length x)) then UB
  else Ok (firstn (Z.to_nat a) mem ++ x ++ skipn (Z.to_nat a + length x) mem).

(** [put_varm] and [get_varm] of NetCDFModel.v, with elements of [e] bytes from
    address [a] on. *)
Fixpoint bput_loop (e : Z) (name : string) (start stride imap : list Z) (a : Z) (mem : bytes) (is : list (list Z))
    (g : string -> list Z -> bytes) : res (string -> list Z -> bytes) :=
  match is with
  | [] => Ok g
  | i :: r => let! x := bload mem (a + e * linear_index i imap) e in
              bput_loop e name start stride imap a mem r (set_cell g name (place_of start stride i) x)
  end.
Definition bput_varm (e : Z) (v : ncvar) (start count stride imap : list Z) (a : Z) (mem : bytes) (file : ncfile bytes)
  : res (ncfile bytes) :=
  if negb (enough v start && enough v count && enough v stride && enough v imap) then UB
  else if negb (all_within None (v_dims v) start count stride) then Err FileIOError
  else let! g := bput_loop e (v_name v) start stride imap a mem (indices count) (cells file) in
       Ok (mk_ncfile (grown v start (recs file)) g).
Fixpoint bget_loop (e : Z) (g : list Z -> bytes) (start stride imap : list Z) (a : Z) (is : list (list Z)) (mem : bytes)
  : res bytes :=
  match is with
  | [] => Ok mem
  | i :: r => let! m := bstore mem (a + e * linear_index i imap) (g (place_of start stride i)) in
              bget_loop e g start stride imap a r m
  end.
Definition bget_varm (e : Z) (v : ncvar) (start count stride imap : list Z) (file : ncfile bytes) (a : Z) (mem : bytes)
  : res bytes :=
  if negb (enough v start && enough v count && enough v stride && enough v imap) then UB
  else if negb (all_within (Some (recs file)) (v_dims v) start count stride) then Err FileIOError
  else bget_loop e (cells file (v_name v)) start stride imap a (indices count) mem.

(** 2528-2553, 2610-2637: a global field; [e] is the size of the elements of the
    variable in the file. *)
Definition bwrite_global (e nb k : Z) (v : ncvar) (h : Z) (f : nfield) (mem : bytes) (file : ncfile bytes) : res (ncfile bytes) :=
  let! frame := handle_frame k nb in
  let! start := get_start_global v f frame h in
  let! count := get_count_global v f in
  let! stride := get_nc_stride v in
  let! imap := get_nc_imap v f in
  bput_varm e v start count stride imap 0 mem file.
Definition bread_global (e nb k : Z) (v : ncvar) (h : Z) (f : nfield) (file : ncfile bytes) (mem : bytes) : res bytes :=
  let! frame := handle_frame k nb in
  let! start := get_start_global v f frame h in
  let! count := get_count_global v f in
  let! stride := get_nc_stride v in
  let! imap := get_nc_imap v f in
  bget_varm e v start count stride imap file 0 mem.
Fixpoint bwrite_ranks (e nb k : Z) (v : ncvar) (h : Z) (ranks : list (nfield * bytes)) (file : ncfile bytes) : res (ncfile bytes) :=
  match ranks with
  | [] => Ok file
  | (f, mem) :: r => let! file' := bwrite_global e nb k v h f mem file in bwrite_ranks e nb k v h r file'
  end.

(** 2554-2606, 2638-2691: a local field; [t] is the type of the variable of the
    object, by which the pointer advances. *)
Fixpoint bput_requests (P : platform) (t : nct) (e : Z) (v : ncvar) (f : nfield) (frame h : Z) (stride imap : list Z) (reqs : list Z)
    (a : Z) (mem : bytes) (file : ncfile bytes) : res (ncfile bytes) :=
  match reqs with
  | [] => Ok file
  | o :: r =>
      let! start := mapm (start_local1 v frame h o) (v_dims v) in
      let! count := mapm (count_local1 f) (v_dims v) in
      let! file' := bput_varm e v start count stride imap a mem file in
      let! b := element_bytes P t in
      bput_requests P t e v f frame h stride imap r (a + b * get_nb_from_shape count) mem file'
  end.
Fixpoint bget_requests (P : platform) (t : nct) (e : Z) (v : ncvar) (f : nfield) (frame h : Z) (stride imap : list Z) (reqs : list Z)
    (file : ncfile bytes) (a : Z) (mem : bytes) : res bytes :=
  match reqs with
  | [] => Ok mem
  | o :: r =>
      let! start := mapm (start_local1 v frame h o) (v_dims v) in
      let! count := mapm (count_local1 f) (v_dims v) in
      let! mem' := bget_varm e v start count stride imap file a mem in
      let! b := element_bytes P t in
      bget_requests P t e v f frame h stride imap r file (a + b * get_nb_from_shape count) mem'
  end.
Definition bwrite_local (P : platform) (t : nct) (e nb k : Z) (v : ncvar) (h : Z) (f : nfield) (pixels : list Z) (mem : bytes)
    (file : ncfile bytes) : res (ncfile bytes) :=
  let! frame := handle_frame k nb in
  if frame <? 0 then Err FileIOError else
  let! stride := get_nc_stride v in
  let! imap := get_nc_imap v f in
  bput_requests P t e v f frame h stride imap (requests pixels) 0 mem file.
Definition bread_local (P : platform) (t : nct) (e nb k : Z) (v : ncvar) (h : Z) (f : nfield) (pixels : list Z)
    (file : ncfile bytes) (mem : bytes) : res bytes :=
  let! frame := handle_frame k nb in
  if frame <? 0 then Err FileIOError else
  let! stride := get_nc_stride v in
  let! imap := get_nc_imap v f in
  bget_requests P t e v f frame h stride imap (requests pixels) file 0 mem.

(** [write_local_ranks], [write_collection] and [read_collection] of
    NetCDFModel.v with bytes; the field of pixel positions is kept as numbers. *)
Fixpoint bwrite_local_ranks (P : platform) (t : nct) (e nb k : Z) (v : ncvar) (h : Z) (ranks : list (nfield * list Z * bytes))
    (file : ncfile bytes) : res (ncfile bytes) :=
  match ranks with
  | [] => Ok file
  | (f, pixels, mem) :: r => let! file' := bwrite_local P t e nb k v h f pixels mem file in
                             bwrite_local_ranks P t e nb k v h r file'
  end.
Definition bwrite_collection (P : platform) (t : nct) (e nb k : Z) (hv v : ncvar) (h : Z) (ws : list (process Z))
    (hfile : ncfile Z) (file : ncfile bytes) : res (ncfile Z * ncfile bytes) :=
  let! hs := hidden_fields (counts_of ws) 0 ws in
  let! hf := write_ranks nb 0 hv 0 (combine (map pr_sub ws) hs) hfile in
  let! f := bwrite_local_ranks P t e nb k v h
              (map (fun x => (pr_field (fst x), snd x, pr_mem (fst x))) (combine ws hs)) file in
  Ok (hf, f).
Definition bread_collection (P : platform) (t : nct) (e nb k : Z) (hv v : ncvar) (h : Z) (r : process Z)
    (hfile : ncfile Z) (file : ncfile bytes) : res bytes :=
  let! px := read_global nb 0 hv 0 (pr_sub r) hfile (repeat (-1) (Z.to_nat (l_npix (nf_lay (pr_sub r))))) in
  bread_local P t e nb k v h (pr_field r) px file (pr_mem r).

(** ** Files that exist already *)

(** 837-862 [register_netcdf_variable_ids] of [open] in read and append mode: the
    variables of the object are looked up by name; the result lists the types
    they have in the file, which the library does not ask for. *)
Fixpoint file_type (in_file : list (string * nct)) (name : string) : res nct :=
  match in_file with
  | [] => Err FileIOError
  | (n, t) :: r => if String.eqb n name then Ok t else file_type r name
  end.
Definition find_variables (in_file own : list (string * nct)) : res (list nct) :=
  if (length in_file <? length own)%nat then Err FileIOError
  else mapm (fun o => file_type in_file (fst o)) own.
(** [read] and [write] of a variable after that. *)
Definition read_existing (in_file own : list (string * nct)) (nb k : Z) (v : ncvar) (h : Z) (f : nfield)
    (file : ncfile bytes) (mem : bytes) : res bytes :=
  let! _ := find_variables in_file own in
  let! t := file_type in_file (v_name v) in
  bread_global (ext_size t) nb k v h f file mem.
Definition write_existing (in_file own : list (string * nct)) (nb k : Z) (v : ncvar) (h : Z) (f : nfield)
    (mem : bytes) (file : ncfile bytes) : res (ncfile bytes) :=
  let! _ := find_variables in_file own in
  let! t := file_type in_file (v_name v) in
  bwrite_global (ext_size t) nb k v h f mem file.
