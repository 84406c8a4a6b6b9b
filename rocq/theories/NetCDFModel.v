(** Fields in NetCDF files (file_io_netcdf.cc, file_io_netcdf.hh).

    The NetCDF library is trusted to do what its documentation says: a
    variable is an array over its dimensions, and [put_varm], [get_varm]
    transfer the elements of a box, with the steps in the file given by
    [stride] and the positions in memory by [imap].  Attributes and modes of the
    file are in AttModel.v; types are not converted, all variables hold
    values of one type.  The fields are those of the library itself
    ([get_strides] as in LayoutModel.v), not fields on foreign memory. *)
From Coq Require Import String Ascii.
From Verif Require Import Base CIntModel GridModel StridedModel LayoutModel CommModel FrameModel RegistryModel.
Local Open Scope Z_scope.
Local Open Scope list_scope.

(** ** Names of dimensions *)

(** 1352-1361 [NetCDFDim::compute_dim_name] *)
Definition compute_dim_name (base suffix : string) : string :=
  match suffix with EmptyString => base | _ => (base ++ "__" ++ suffix)%string end.

(** [std::string::rfind("__")]: the last position where two underscores
    follow each other. *)
Definition two_underscores (s : string) : bool :=
  match s with
  | String a (String b _) => Ascii.eqb a "_" && Ascii.eqb b "_"
  | _ => false
  end.
Fixpoint rfind_underscores (s : string) : option nat :=
  match s with
  | EmptyString => None
  | String _ r => match rfind_underscores r with
                  | Some p => Some (S p)
                  | None => if two_underscores s then Some 0%nat else None
                  end
  end.
(** 1340-1349 [NetCDFDim::compute_base_name] *)
Definition compute_base_name (full : string) : string :=
  match rfind_underscores full with Some p => substring 0 p full | None => full end.

(** [std::string::find_last_of("-")], followed by [substr(pos + 1)]; without a
    dash the position is [npos] and [npos + 1] is 0. *)
Fixpoint after_last_dash (s : string) : option string :=
  match s with
  | EmptyString => None
  | String a r => match after_last_dash r with
                  | Some t => Some t
                  | None => if Ascii.eqb a "-" then Some r else None
                  end
  end.
(** [std::stoi] on a string that starts with digits; white space and signs are
    not modelled, a string without leading digit throws
    [std::invalid_argument]. *)
Definition digit (a : ascii) : option Z :=
  let n := Z.of_nat (nat_of_ascii a) in if (48 <=? n) && (n <=? 57) then Some (n - 48) else None.
Fixpoint digits (acc : Z) (s : string) : Z :=
  match s with
  | String a r => match digit a with Some d => digits (10 * acc + d) r | None => acc end
  | EmptyString => acc
  end.
Definition stoi (s : string) : res Z :=
  match s with
  | String a _ => match digit a with
                  | Some _ => let v := digits 0 s in if v <? 2 ^ 31 then Ok v else Err OutOfRange
                  | None => Err ValueError
                  end
  | EmptyString => Err ValueError
  end.
(** 1364-1378 [NetCDFDim::compute_tensor_dim_index]; the exception for other
    dimensions is constructed and not thrown. *)
Definition compute_tensor_dim_index (name : string) : res Z :=
  if String.eqb (compute_base_name name) "tensor_dim" then
    stoi (match after_last_dash name with Some t => t | None => name end)
  else Ok (-1).

(** ** Dimensions of a variable *)

Record ncdim := mk_ncdim { d_name : string; d_size : Z }.

(** What is read of a field and its collection: unique name, tag of the
    sub-division, layout, extents of the domain and location of the
    sub-domain. *)
Record nfield := mk_nfield {
  nf_name : string;
  nf_tag : string;
  nf_lay : layout;
  nf_dom : list Z;
  nf_loc : list Z
}.

(** [std::to_string] of a number that is not negative. *)
Definition to_string (n : Z) : string := decimal (Z.to_N n).

(** 1184-1194, 1248-1257: one dimension per component axis; [name] is that of
    the state field, if there is one. *)
Fixpoint tensor_dims (name : string) (i : Z) (comp : list Z) : list ncdim :=
  match comp with
  | [] => []
  | c :: r => mk_ncdim (compute_dim_name "tensor_dim" (name ++ "-" ++ to_string i)%string) c
              :: tensor_dims name (i + 1) r
  end.
(** 1196-1202, 1259-1264 *)
Definition subpt_dims (f : layout) (tag : string) : list ncdim :=
  if negb (l_nsub f =? 1) || negb (l_nbc f =? 1)
  then [mk_ncdim (compute_dim_name "subpt" (tag ++ "-" ++ to_string (l_nsub f))%string) (l_nsub f)]
  else [].
(** 1173, 1204-1223: the names end after three axes; the entry beyond is
    undefined behaviour.  [seen] is [global_domain_grid], zero where nothing
    was registered. *)
Definition grid_names : list string := ["nx"; "ny"; "nz"]%string.
Fixpoint grid_dims (names : list string) (seen dom : list Z) : list Z * res (list ncdim) :=
  match dom with
  | [] => (seen, Ok [])
  | n :: dom' =>
    match names, seen with
    | name :: names', old :: seen' =>
        if negb (old =? 0) && negb (old =? n) then (seen, Err FileIOError)
        else let '(s, r) := grid_dims names' seen' dom' in
             (n :: s, let! l := r in Ok (mk_ncdim (compute_dim_name name "") n :: l))
    | _, _ => (seen, UB)
    end
  end.
(** 1164-1224 [add_field_dims_global], 1227-1274 [add_field_dims_local];
    [total] is the number of pixels on all processes. *)
Definition add_field_dims_global (seen : list Z) (name : string) (f : nfield) : list Z * res (list ncdim) :=
  let '(s, r) := grid_dims grid_names seen (nf_dom f) in
  (s, let! g := r in
      Ok (tensor_dims name 0 (l_comp (nf_lay f)) ++ subpt_dims (nf_lay f) (nf_tag f) ++ g)).
Definition add_field_dims_local (total : Z) (name : string) (f : nfield) : list ncdim :=
  tensor_dims name 0 (l_comp (nf_lay f)) ++ subpt_dims (nf_lay f) (nf_tag f) ++
  (if negb (total =? 0) then [mk_ncdim (compute_dim_name "pts" name) total] else []).

(** A variable: its dimensions and, for a state field, the number of fields in
    the history.  The size of [frame] (unlimited) is not used. *)
Record ncvar := mk_ncvar {
  v_name : string;
  v_dims : list ncdim;
  v_hist : option Z
}.
Definition frame_dim : ncdim := mk_ncdim "frame" 0.
Definition hist_dim (nb : Z) : ncdim := mk_ncdim ("history_index__" ++ to_string nb)%string nb.

(** ** Start, count, stride and imap *)

Fixpoint mapm {A B} (g : A -> res B) (l : list A) : res (list B) :=
  match l with
  | [] => Ok []
  | x :: r => let! y := g x in let! ys := mapm g r in Ok (y :: ys)
  end.
Definition base_is (d : ncdim) (s : string) : bool := String.eqb (compute_base_name (d_name d)) s.
(** Position of a grid axis; [None] for other dimensions. *)
Definition grid_axis (d : ncdim) : option nat :=
  if base_is d "nx" then Some 0%nat else if base_is d "ny" then Some 1%nat
  else if base_is d "nz" then Some 2%nat else None.

(** 2711-2776 and 2953-3022 [get_start_global]; [h] is [state_field_index]. *)
Definition start1 (v : ncvar) (f : nfield) (frame h : Z) (d : ncdim) : res Z :=
  if base_is d "frame" then Ok frame
  else if base_is d "history_index" && match v_hist v with Some _ => true | None => false end then Ok h
  else match grid_axis d with
       | Some i => Ok (zn (nf_loc f) i)
       | None => if base_is d "subpt" || base_is d "tensor_dim" then Ok 0 else Err FileIOError
       end.
Definition get_start_global (v : ncvar) (f : nfield) (frame h : Z) : res (list Z) :=
  if frame <? 0 then Err FileIOError else mapm (start1 v f frame h) (v_dims v).

(** 2127-2184 [get_count_global] *)
Definition tensor_count (f : nfield) (d : ncdim) : res Z :=
  let! i := compute_tensor_dim_index (d_name d) in
  if (i <? 0) then UB
  else match nth_error (l_comp (nf_lay f)) (Z.to_nat i) with Some n => Ok n | None => UB end.
Definition count1 (f : nfield) (d : ncdim) : res Z :=
  if base_is d "frame" || base_is d "history_index" then Ok 1
  else match grid_axis d with
       | Some i => Ok (zn (l_pix (nf_lay f)) i)
       | None => if base_is d "subpt" then Ok (l_nsub (nf_lay f))
                 else if base_is d "tensor_dim" then tensor_count f d
                 else Err FileIOError
       end.
Definition get_count_global (v : ncvar) (f : nfield) : res (list Z) := mapm (count1 f) (v_dims v).

(** 2824-2856 and 3071-3108 [get_nc_stride] *)
Definition stride1 (v : ncvar) (d : ncdim) : res Z :=
  if base_is d "history_index" then match v_hist v with Some nb => Ok nb | None => Err FileIOError end
  else if base_is d "frame" || base_is d "pts" || base_is d "subpt" || base_is d "tensor_dim" ||
          match grid_axis d with Some _ => true | None => false end
       then Ok 1 else Err FileIOError.
Definition get_nc_stride (v : ncvar) : res (list Z) := mapm (stride1 v) (v_dims v).

(** 2859-2913, 3111-3185 [get_nc_imap_global], [get_nc_imap_local]; the entries
    for frame and history differ between the two, and are never used since
    the counts are one. *)
Definition get_nc_imap (v : ncvar) (f : nfield) : res (list Z) :=
  let l := nf_lay f in
  let u := if l_nbc l =? 1 then Pixel else SubPt in
  let! s := get_strides l u 1 in
  let all := l_npix l * nb_dof_per_pixel l in
  let imap := match v_hist v with None => all :: s | Some nb => all * nb :: all :: s end in
  if existsb (fun d => String.eqb (d_name d) "frame") (v_dims v) then Ok imap
  else if (length imap <? length (v_dims v))%nat then UB
  else Ok (skipn (length imap - length (v_dims v)) imap).

(** 2436-2475 [consistency_check_global_var] *)
Definition consistency_check_global (v : ncvar) (f : nfield) : res unit :=
  let! a := get_start_global v f 0 0 in
  let! b := get_count_global v f in
  let! c := get_nc_stride v in
  let! d := get_nc_imap v f in
  if (length a =? length b)%nat && (length a =? length c)%nat && (length a =? length d)%nat
  then Ok tt else Err FileIOError.

(** 467-573 [register_field_collection_global] for one field ([hist = None])
    or state field, whose name is [name]; hidden fields have no frame. *)
Definition register_global (seen : list Z) (hidden : bool) (hist : option Z) (name : string) (f : nfield)
  : list Z * res ncvar :=
  let '(s, r) := add_field_dims_global seen name f in
  (s, let! ds := r in
      let v := mk_ncvar name ((if hidden then [] else [frame_dim]) ++
                              (match hist with Some nb => [hist_dim nb] | None => [] end) ++ ds) hist in
      let! _ := consistency_check_global v f in
      Ok v).

(** ** The file *)

(** Number of records (length of the unlimited dimension) and the cells of each
    variable.  Cells that were never written hold arbitrary values. *)
Record ncfile (A : Type) := mk_ncfile {
  recs : Z;
  cells : string -> list Z -> A
}.
Arguments mk_ncfile {A} _ _.
Arguments recs {A} _.
Arguments cells {A} _.

(** All indices of a box in C order. *)
Fixpoint zrange_from (a : Z) (n : nat) : list Z :=
  match n with O => [] | S m => a :: zrange_from (a + 1) m end.
Fixpoint indices (count : list Z) : list (list Z) :=
  match count with
  | [] => [[]]
  | n :: r => flat_map (fun x => map (cons x) (indices r)) (zrange_from 0 (Z.to_nat n))
  end.

(** Checks of the library: start and end within the dimension; an empty box may
    start at the end.  [limit] is the
    number of records for the frame dimension when reading, and [None] when
    writing. *)
Definition within_dim (limit : option Z) (d : ncdim) (start count stride : Z) : bool :=
  let size := if base_is d "frame" then limit else Some (d_size d) in
  (0 <=? start) && (0 <? stride) &&
  match size with
  | None => true
  | Some n => if count =? 0 then start <=? n else (start <? n) && (start + (count - 1) * stride <? n)
  end.
Fixpoint all_within (limit : option Z) (ds : list ncdim) (start count stride : list Z) : bool :=
  match ds, start, count, stride with
  | d :: ds', a :: start', c :: count', s :: stride' =>
      within_dim limit d a c s && all_within limit ds' start' count' stride'
  | _, _, _, _ => true
  end.
(** The vectors are passed as pointers to as many numbers as the variable has
    dimensions. *)
Definition enough {B} (v : ncvar) (l : list B) : bool := (length (v_dims v) <=? length l)%nat.
Fixpoint place_of (start stride idx : list Z) : list Z :=
  match start, stride, idx with
  | a :: start', s :: stride', i :: idx' => a + s * i :: place_of start' stride' idx'
  | _, _, _ => []
  end.

Section Transfer.
Context {A : Type}.

Definition set_cell (g : string -> list Z -> A) (name : string) (at_ : list Z) (x : A) : string -> list Z -> A :=
  fun n i => if String.eqb n name && zlist_eqb i at_ then x else g n i.

(** The memory is [buf] from position [p] on. *)
Fixpoint put_loop (name : string) (start stride imap : list Z) (p : Z) (buf : list A) (is : list (list Z))
    (g : string -> list Z -> A) : res (string -> list Z -> A) :=
  match is with
  | [] => Ok g
  | i :: r => let! x := rd buf (p + linear_index i imap) in
              put_loop name start stride imap p buf r (set_cell g name (place_of start stride i) x)
  end.
(** The number of records after a write: the frame written exists. *)
Definition grown (v : ncvar) (start : list Z) (n : Z) : Z :=
  match v_dims v, start with
  | d :: _, a :: _ => if base_is d "frame" then Z.max n (a + 1) else n
  | _, _ => n
  end.
Definition put_varm (v : ncvar) (start count stride imap : list Z) (p : Z) (buf : list A) (file : ncfile A)
  : res (ncfile A) :=
  if negb (enough v start && enough v count && enough v stride && enough v imap) then UB
  else if negb (all_within None (v_dims v) start count stride) then Err FileIOError
  else let! g := put_loop (v_name v) start stride imap p buf (indices count) (cells file) in
       Ok (mk_ncfile (grown v start (recs file)) g).

Fixpoint get_loop (g : list Z -> A) (start stride imap : list Z) (p : Z) (is : list (list Z)) (buf : list A)
  : res (list A) :=
  match is with
  | [] => Ok buf
  | i :: r => let! b := wr buf (p + linear_index i imap) (g (place_of start stride i)) in
              get_loop g start stride imap p r b
  end.
Definition get_varm (v : ncvar) (start count stride imap : list Z) (file : ncfile A) (p : Z) (buf : list A)
  : res (list A) :=
  if negb (enough v start && enough v count && enough v stride && enough v imap) then UB
  else if negb (all_within (Some (recs file)) (v_dims v) start count stride) then Err FileIOError
  else get_loop (cells file (v_name v)) start stride imap p (indices count) buf.

(** 2528-2553, 2610-2637 [NetCDFVarBase::write], [read] of a global field, and
    of entry [h] of a global state field; [nb] is the number of frames. *)
Definition write_global (nb k : Z) (v : ncvar) (h : Z) (f : nfield) (mem : list A) (file : ncfile A)
  : res (ncfile A) :=
  let! frame := handle_frame k nb in
  let! start := get_start_global v f frame h in
  let! count := get_count_global v f in
  let! stride := get_nc_stride v in
  let! imap := get_nc_imap v f in
  put_varm v start count stride imap 0 mem file.
Definition read_global (nb k : Z) (v : ncvar) (h : Z) (f : nfield) (file : ncfile A) (mem : list A)
  : res (list A) :=
  let! frame := handle_frame k nb in
  let! start := get_start_global v f frame h in
  let! count := get_count_global v f in
  let! stride := get_nc_stride v in
  let! imap := get_nc_imap v f in
  get_varm v start count stride imap file 0 mem.

(** A collective write: every process its own sub-domain; the order in which
    the library performs them is that of the list. *)
Fixpoint write_ranks (nb k : Z) (v : ncvar) (h : Z) (ranks : list (nfield * list A)) (file : ncfile A)
  : res (ncfile A) :=
  match ranks with
  | [] => Ok file
  | (f, mem) :: r => let! file' := write_global nb k v h f mem file in write_ranks nb k v h r file'
  end.

(** 3188-3219 [NetCDFVarStateField::write], [read]: entry after entry, with
    [state_field_index = h]; the memories of a process are those of the current
    and the older fields in order. *)
Fixpoint write_state (nb k : Z) (v : ncvar) (h : Z) (n : nat) (ranks : list (nfield * list (list A)))
    (file : ncfile A) : res (ncfile A) :=
  match n with
  | O => Ok file
  | S m => let! file' := write_ranks nb k v h
                           (map (fun r => (fst r, nth (Z.to_nat h) (snd r) [])) ranks) file in
           write_state nb k v (h + 1) m ranks file'
  end.
Fixpoint read_state (nb k : Z) (v : ncvar) (h : Z) (f : nfield) (file : ncfile A) (mems : list (list A))
  : res (list (list A)) :=
  match mems with
  | [] => Ok []
  | mem :: r => let! m := read_global nb k v h f file mem in
                let! ms := read_state nb k v (h + 1) f file r in Ok (m :: ms)
  end.

(** ** Local fields *)

(** 2780-2821, 3025-3068 [get_start_local] and 2188-2227 [get_count_local]: one
    request per entry of the hidden field that is not the default value -1, in
    the order of the buffer of that field. *)
Definition start_local1 (v : ncvar) (frame h off : Z) (d : ncdim) : res Z :=
  if base_is d "frame" then Ok frame
  else if base_is d "history_index" && match v_hist v with Some _ => true | None => false end then Ok h
  else if base_is d "pts" then Ok off
  else if base_is d "subpt" || base_is d "tensor_dim" then Ok 0 else Err FileIOError.
Definition count_local1 (f : nfield) (d : ncdim) : res Z :=
  if base_is d "frame" || base_is d "history_index" || base_is d "pts" then Ok 1
  else if base_is d "subpt" then Ok (l_nsub (nf_lay f))
  else if base_is d "tensor_dim" then tensor_count f d
  else Err FileIOError.
Definition requests (pixels : list Z) : list Z := filter (fun o => negb (o =? -1)) pixels.

(** 2554-2606 and 2638-2691: one transfer per request; the buffer pointer
    advances by the number of elements transferred. *)
Fixpoint put_requests (v : ncvar) (f : nfield) (frame h : Z) (stride imap : list Z) (reqs : list Z)
    (p : Z) (buf : list A) (file : ncfile A) : res (ncfile A) :=
  match reqs with
  | [] => Ok file
  | o :: r =>
      let! start := mapm (start_local1 v frame h o) (v_dims v) in
      let! count := mapm (count_local1 f) (v_dims v) in
      let! file' := put_varm v start count stride imap p buf file in
      put_requests v f frame h stride imap r (p + get_nb_from_shape count) buf file'
  end.
Fixpoint get_requests (v : ncvar) (f : nfield) (frame h : Z) (stride imap : list Z) (reqs : list Z)
    (file : ncfile A) (p : Z) (buf : list A) : res (list A) :=
  match reqs with
  | [] => Ok buf
  | o :: r =>
      let! start := mapm (start_local1 v frame h o) (v_dims v) in
      let! count := mapm (count_local1 f) (v_dims v) in
      let! buf' := get_varm v start count stride imap file p buf in
      get_requests v f frame h stride imap r file (p + get_nb_from_shape count) buf'
  end.
Definition write_local (nb k : Z) (v : ncvar) (h : Z) (f : nfield) (pixels : list Z) (mem : list A)
    (file : ncfile A) : res (ncfile A) :=
  let! frame := handle_frame k nb in
  if frame <? 0 then Err FileIOError else
  let! stride := get_nc_stride v in
  let! imap := get_nc_imap v f in
  put_requests v f frame h stride imap (requests pixels) 0 mem file.
Definition read_local (nb k : Z) (v : ncvar) (h : Z) (f : nfield) (pixels : list Z)
    (file : ncfile A) (mem : list A) : res (list A) :=
  let! frame := handle_frame k nb in
  if frame <? 0 then Err FileIOError else
  let! stride := get_nc_stride v in
  let! imap := get_nc_imap v f in
  get_requests v f frame h stride imap (requests pixels) file 0 mem.
(** All processes write their part of a local field: [pixels] are the entries of
    the hidden field on the process. *)
Fixpoint write_local_ranks (nb k : Z) (v : ncvar) (h : Z) (ranks : list (nfield * list Z * list A))
    (file : ncfile A) : res (ncfile A) :=
  match ranks with
  | [] => Ok file
  | (f, pixels, mem) :: r => let! file' := write_local nb k v h f pixels mem file in
                             write_local_ranks nb k v h r file'
  end.
End Transfer.

(** 698-742 [register_lfc_to_gfc_local_pixels]: the hidden field, filled with
    -1; in write mode entry [id] is the position of the pixel among the local
    pixels of all processes.  [ids] are the pixels of the local collection in
    its order, [npix] the number of pixels of the sub-domain, [counts] the
    numbers of local pixels of all processes. *)
Fixpoint fill_offsets (ids : list Z) (o : Z) (field : list Z) : res (list Z) :=
  match ids with
  | [] => Ok field
  | id :: r => let! b := wr field id o in fill_offsets r (o + 1) b
  end.
Definition hidden_field (counts : list Z) (rank : nat) (npix : Z) (ids : list Z) : res (list Z) :=
  fill_offsets ids (cumulative_sum counts rank - zn counts rank) (repeat (-1) (Z.to_nat npix)).

(** 576-680 [register_field_collection_local] for one field: [pixels] is the
    hidden field, [total] the number of local pixels on all processes.  2480-2525
    [consistency_check_local_var]: the lengths of all starts and of all counts
    must be equal and multiples of the number of strides. *)
Definition consistency_check_local (v : ncvar) (f : nfield) (pixels : list Z) : res unit :=
  let! a := mapm (fun o => mapm (start_local1 v 0 0 o) (v_dims v)) (requests pixels) in
  let! b := mapm (fun _ => mapm (count_local1 f) (v_dims v)) (requests pixels) in
  let! c := get_nc_stride v in
  let! d := get_nc_imap v f in
  let n := length c in
  if (length (concat a) mod n =? 0)%nat && (length (concat b) mod n =? 0)%nat &&
     (n =? length d)%nat && (length (concat a) =? length (concat b))%nat
  then Ok tt else Err FileIOError.
Definition register_local (total : Z) (hist : option Z) (name : string) (f : nfield) (pixels : list Z)
  : res ncvar :=
  let v := mk_ncvar name ([frame_dim] ++ (match hist with Some nb => [hist_dim nb] | None => [] end) ++
                          add_field_dims_local total name f) hist in
  let! _ := consistency_check_local v f pixels in
  Ok v.

(** ** A local field with its collection *)

(** A process: its sub-domain as the field of pixel positions, the pixels of its
    local collection in order, and its part of a local field. *)
Record process (A : Type) := mk_process {
  pr_sub : nfield;
  pr_ids : list Z;
  pr_field : nfield;
  pr_mem : list A
}.
Arguments mk_process {A} _ _ _ _.
Arguments pr_sub {A} _.
Arguments pr_ids {A} _.
Arguments pr_field {A} _.
Arguments pr_mem {A} _.
Definition counts_of {A} (ws : list (process A)) : list Z := map (fun w => Z.of_nat (length (pr_ids w))) ws.
Fixpoint hidden_fields {A} (counts : list Z) (rank : nat) (ws : list (process A)) : res (list (list Z)) :=
  match ws with
  | [] => Ok []
  | w :: r => let! x := hidden_field counts rank (l_npix (nf_lay (pr_sub w))) (pr_ids w) in
              let! y := hidden_fields counts (S rank) r in Ok (x :: y)
  end.
(** 343-387 [write] and 313-335 [read] of a local variable [v] for the first time
    with the file: the field of pixel positions [hv], which has no frame and is
    kept in a file of its own here, goes first. *)
Definition write_collection {A} (nb k : Z) (hv v : ncvar) (h : Z) (ws : list (process A))
    (hfile : ncfile Z) (file : ncfile A) : res (ncfile Z * ncfile A) :=
  let! hs := hidden_fields (counts_of ws) 0 ws in
  let! hf := write_ranks nb 0 hv 0 (combine (map pr_sub ws) hs) hfile in
  let! f := write_local_ranks nb k v h
              (map (fun x => (pr_field (fst x), snd x, pr_mem (fst x))) (combine ws hs)) file in
  Ok (hf, f).
Definition read_collection {A} (nb k : Z) (hv v : ncvar) (h : Z) (r : process A)
    (hfile : ncfile Z) (file : ncfile A) : res (list A) :=
  let! px := read_global nb 0 hv 0 (pr_sub r) hfile (repeat (-1) (Z.to_nat (l_npix (nf_lay (pr_sub r))))) in
  read_local nb k v h (pr_field r) px file (pr_mem r).

(** ** Files of other programs *)

(** 797-834 [register_netcdf_dimension_ids] of [open] in read and append mode:
    the file must have as many dimensions, and dimensions with these names;
    their lengths are not read, except that of the unlimited one.  837-862
    variables likewise are looked up by name, their dimensions are not. *)
Definition find_dims (in_file own : list ncdim) : res unit :=
  if (length in_file <? length own)%nat then Err FileIOError
  else if forallb (fun d => existsb (fun e => String.eqb (d_name e) (d_name d)) in_file) own then Ok tt
  else Err FileIOError.
(** Reading a variable that is [fv] in the file as [v]: start, count, stride and
    imap come from [v], the library knows [fv]. *)
Definition read_found {A} (nb k : Z) (fv v : ncvar) (h : Z) (f : nfield) (file : ncfile A) (mem : list A)
  : res (list A) :=
  let! _ := find_dims (v_dims fv) (v_dims v) in
  let! frame := handle_frame k nb in
  let! start := get_start_global v f frame h in
  let! count := get_count_global v f in
  let! stride := get_nc_stride v in
  let! imap := get_nc_imap v f in
  get_varm fv start count stride imap file 0 mem.
