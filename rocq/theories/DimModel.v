(** Dimensions and variables of a file object and of its file: how several
    collections registered one after the other share dimensions
    (file_io_netcdf.cc:467-862, 1150-1305, 3212-3305).

    NetCDFModel.v looks at one variable and takes its dimensions from the field;
    here the object keeps a list of dimensions that all variables use, in the file
    as well as in memory, and finds them again by name in a file that exists.
    Not modelled: attributes, modes and data (AttModel.v, NetCDFModel.v), element
    types (IoTypeModel.v). *)
From Coq Require Import String.
From Verif Require Import Base GridModel StridedModel LayoutModel NetCDFModel.
From Verif Require AttModel.
Local Open Scope Z_scope.
Local Open Scope list_scope.

(** ** Functions that change the object and may throw *)
Definition M (S X : Type) : Type := S -> S * res X.
Definition mret {S X} (x : X) : M S X := fun s => (s, Ok x).
Definition mfail {S X} (r : res X) : M S X := fun s => (s, r).
Definition mbind {S X Y} (a : M S X) (k : X -> M S Y) : M S Y :=
  fun s => match a s with
           | (s', Ok x) => k x s'
           | (s', Err e) => (s', Err e)
           | (s', UB) => (s', UB)
           end.
Definition mlift {S X} (r : res X) : M S X := fun s => (s, r).
Notation "'do' x <- a ; b" := (mbind a (fun x => b)) (at level 200, x pattern, a at level 100, b at level 200).
Fixpoint meach {S X Y} (g : X -> M S Y) (l : list X) : M S (list Y) :=
  match l with
  | [] => mret []
  | x :: r => do y <- g x; do ys <- meach g r; mret (y :: ys)
  end.

(** ** The object *)

(** A dimension with its number in the file (-1 is [None]), and a variable: its
    dimensions are positions in the list of dimensions. *)
Record dimobj := mk_dimobj { do_dim : ncdim; do_id : option nat }.
Record varobj := mk_varobj { vo_var : ncvar; vo_hidden : bool; vo_refs : list nat; vo_id : option nat }.
(** [o_grid] is [global_domain_grid], [o_subs] [state_field_field_names],
    [o_pixels] the collection [GFC_local_pixels]: a field of it (without name) and
    the names of its fields, once it is initialised. *)
Record fobj := mk_fobj {
  o_dims : list dimobj;
  o_grid : list Z;
  o_vars : list varobj;
  o_subs : list string;
  o_pixels : option (nfield * list string)
}.
(** 174-240 [open]: the dimension [frame] is in the object, the file has none. *)
Definition new_obj : fobj := mk_fobj [mk_dimobj frame_dim None] [0; 0; 0] [] [] None.

Definition set_dims (l : list dimobj) (o : fobj) : fobj := mk_fobj l (o_grid o) (o_vars o) (o_subs o) (o_pixels o).
Definition set_grid (l : list Z) (o : fobj) : fobj := mk_fobj (o_dims o) l (o_vars o) (o_subs o) (o_pixels o).
Definition set_vars (l : list varobj) (o : fobj) : fobj := mk_fobj (o_dims o) (o_grid o) l (o_subs o) (o_pixels o).
Definition set_subs (l : list string) (o : fobj) : fobj := mk_fobj (o_dims o) (o_grid o) (o_vars o) l (o_pixels o).
Definition set_pixels (p : nfield * list string) (o : fobj) : fobj := mk_fobj (o_dims o) (o_grid o) (o_vars o) (o_subs o) (Some p).

Definition has (n : string) (l : list string) : bool := existsb (String.eqb n) l.
Fixpoint position {X} (p : X -> bool) (l : list X) : option nat :=
  match l with
  | [] => None
  | x :: r => if p x then Some 0%nat else option_map S (position p r)
  end.
(** 1381-1388 [NetCDFDim::equal] *)
Definition dim_equal (d : ncdim) (x : dimobj) : bool :=
  String.eqb (d_name (do_dim x)) (d_name d) && (d_size (do_dim x) =? d_size d).
(** 1150-1161 [add_dim], 1278-1289 [find_dim] *)
Definition add_dim (d : ncdim) : M fobj nat := fun o =>
  match position (dim_equal d) (o_dims o) with
  | Some i => (o, Ok i)
  | None => (set_dims (o_dims o ++ [mk_dimobj d None]) o, Ok (length (o_dims o)))
  end.
Definition find_dim (d : ncdim) : M fobj nat := fun o =>
  match position (dim_equal d) (o_dims o) with Some i => (o, Ok i) | None => (o, Err FileIOError) end.

(** 1204-1223: the extents of the domain, compared with those of collections
    registered before. *)
Fixpoint grid_loop (names : list string) (i : nat) (dom : list Z) : M fobj (list nat) :=
  match dom with
  | [] => mret []
  | n :: dom' =>
      match names with
      | [] => mfail UB
      | name :: names' => fun o =>
          match nth_error (o_grid o) i with
          | None => (o, UB)
          | Some old =>
              if negb (old =? 0) && negb (old =? n) then (o, Err FileIOError)
              else (do r <- add_dim (mk_ncdim (compute_dim_name name "") n);
                    do rs <- grid_loop names' (S i) dom';
                    mret (r :: rs)) (set_grid (upd (o_grid o) i n) o)
          end
      end
  end.
(** 1164-1224 [add_field_dims_global], 1227-1274 [add_field_dims_local] *)
Definition add_dims_global (name : string) (f : nfield) : M fobj (list nat) :=
  do a <- meach add_dim (tensor_dims name 0 (l_comp (nf_lay f)) ++ subpt_dims (nf_lay f) (nf_tag f));
  do b <- grid_loop grid_names 0 (nf_dom f);
  mret (a ++ b).
Definition add_dims_local (total : Z) (name : string) (f : nfield) : M fobj (list nat) :=
  meach add_dim (add_field_dims_local total name f).

(** ** Registration *)

(** A field, or a state field with the number of its fields and their names. *)
Record rvar := mk_rvar { rv_name : string; rv_hist : option Z; rv_field : nfield; rv_subs : list string }.

(** 3263-3271 [get_names]: without the hidden ones. *)
Definition get_names (o : fobj) : list string := map (fun v => v_name (vo_var v)) (filter (fun v => negb (vo_hidden v)) (o_vars o)).
(** 3220-3249 [add_field_var], [add_state_field_var] *)
Definition dims_at (o : fobj) (refs : list nat) : list ncdim :=
  flat_map (fun i => match nth_error (o_dims o) i with Some x => [do_dim x] | None => [] end) refs.
Definition add_var (r : rvar) (hidden : bool) (refs : list nat) : M fobj ncvar := fun o =>
  let v := mk_ncvar (rv_name r) (dims_at o refs) (rv_hist r) in
  (set_vars (o_vars o ++ [mk_varobj v hidden refs None]) o, Ok v).
Definition add_subs (r : rvar) : M fobj unit := fun o => (set_subs (o_subs o ++ rv_subs r) o, Ok tt).

(** 477-514, 518-563: one state field or field of a global collection;
    [hidden_names] are the fields of [GFC_local_pixels]. *)
Definition register_global_var (hidden_names : list string) (r : rvar) : M fobj unit := fun o =>
  if has (rv_name r) (get_names o) then (o, Err FileIOError)
  else match rv_hist r with
       | None =>
           if has (rv_name r) (o_subs o) then (o, Ok tt)
           else let hidden := has (rv_name r) hidden_names in
                (do a <- meach find_dim (if hidden then [] else [frame_dim]);
                 do c <- add_dims_global (rv_name r) (rv_field r);
                 do v <- add_var r hidden (a ++ c);
                 mlift (consistency_check_global v (rv_field r))) o
       | Some nb =>
           (do a <- find_dim frame_dim;
            do b <- add_dim (hist_dim nb);
            do c <- add_dims_global (rv_name r) (rv_field r);
            do v <- add_var r false (a :: b :: c);
            do _ <- add_subs r;
            mlift (consistency_check_global v (rv_field r))) o
       end.

(** What is read of a global collection: extents of the domain and of the
    sub-domain, location. *)
Record gcoll := mk_gcoll { gc_dom : list Z; gc_sub : list Z; gc_loc : list Z }.
(** 683-695 [initialise_gfc_local_pixels], and 706-708: fields of this collection
    have one component and one sub-point. *)
Definition pixels_field (g : gcoll) : res nfield :=
  let! l := global_layout_order ColMajor Automatic (gc_sub g) (gc_loc g) [1] 1 in
  Ok (mk_nfield "" "pixel" l (gc_dom g) (gc_loc g)).
Definition initialise_pixels (g : gcoll) : M fobj unit := fun o =>
  match o_pixels o with
  | Some _ => (o, Ok tt)
  | None => (do p <- mlift (pixels_field g); fun o => (set_pixels (p, []) o, Ok tt)) o
  end.
Definition hidden_names (o : fobj) : list string := match o_pixels o with Some (_, l) => l | None => [] end.
(** 467-573 [register_field_collection_global]; [vars] are the state fields
    followed by the fields. *)
Definition register_global_coll (g : gcoll) (vars : list rvar) : M fobj unit := fun o =>
  (do _ <- meach (register_global_var (hidden_names o)) vars; initialise_pixels g) o.

Definition named (p : nfield) (n : string) : nfield := mk_nfield n (nf_tag p) (nf_lay p) (nf_dom p) (nf_loc p).
(** 698-742: the field of pixel positions; a second one of this name is refused by
    the collection (field_typed.hh:600-612). *)
Definition register_pixels (lname : string) : M fobj nfield := fun o =>
  match o_pixels o with
  | None => (o, Err FileIOError)
  | Some (p, l) => if has lname l then (o, Err FieldCollectionError)
                   else (set_pixels (p, l ++ [lname]) o, Ok (named p lname))
  end.
(** 588-630, 633-679: one state field or field of a local collection; [pixels] are
    the values of the field of pixel positions on this process. *)
Definition register_local_var (total : Z) (pixels : list Z) (r : rvar) : M fobj unit := fun o =>
  if has (rv_name r) (get_names o) then (o, Err FileIOError)
  else match rv_hist r with
       | None =>
           if has (rv_name r) (o_subs o) then (o, Ok tt)
           else (do a <- find_dim frame_dim;
                 do c <- add_dims_local total (rv_name r) (rv_field r);
                 do v <- add_var r false (a :: c);
                 mlift (consistency_check_local v (rv_field r) pixels)) o
       | Some nb =>
           (do a <- find_dim frame_dim;
            do b <- add_dim (hist_dim nb);
            do c <- add_dims_local total (rv_name r) (rv_field r);
            do v <- add_var r false (a :: b :: c);
            do _ <- add_subs r;
            mlift (consistency_check_local v (rv_field r) pixels)) o
       end.
(** 576-680 [register_field_collection_local] *)
Definition register_local_coll (lname : string) (total : Z) (pixels : list Z) (vars : list rvar) : M fobj unit :=
  do p <- register_pixels lname;
  do _ <- (fun o => register_global_var (hidden_names o) (mk_rvar lname None p []) o);
  do _ <- meach (register_local_var total pixels) vars;
  mret tt.

(** ** The file *)

(** Dimensions and variables of a file; a number is a position. *)
Record nclib := mk_nclib { lf_dims : list ncdim; lf_vars : list (string * list nat) }.
Definition empty_lib : nclib := mk_nclib [] [].
(** [nc_def_dim]: names are legal and unique; length 0 is [NC_UNLIMITED], of which
    there is one at most. *)
Definition lib_def_dim (d : ncdim) (f : nclib) : option (nclib * nat) :=
  if negb (AttModel.legal_name (d_name d)) || existsb (fun e => String.eqb (d_name e) (d_name d)) (lf_dims f) ||
     (d_size d <? 0) || ((d_size d =? 0) && existsb (fun e => d_size e =? 0) (lf_dims f))
  then None
  else Some (mk_nclib (lf_dims f ++ [d]) (lf_vars f), length (lf_dims f)).
(** [nc_def_var]: names likewise, the dimensions exist, the unlimited one comes
    first. *)
Definition lib_def_var (name : string) (ids : list nat) (f : nclib) : option (nclib * nat) :=
  if negb (AttModel.legal_name name) || existsb (fun e => String.eqb (fst e) name) (lf_vars f) ||
     negb (forallb (fun i => (i <? length (lf_dims f))%nat) ids) ||
     existsb (fun i => match nth_error (lf_dims f) i with Some d => d_size d =? 0 | None => false end) (tl ids)
  then None
  else Some (mk_nclib (lf_dims f) (lf_vars f ++ [(name, ids)]), length (lf_vars f)).

(** The object and the file. *)
Definition sess : Type := fobj * nclib.
Definition on_obj {X} (m : M fobj X) : M sess X := fun s => let '(o, r) := m (fst s) in ((o, snd s), r).
(** 745-759 [define_netcdf_dimensions] *)
Definition define_dim (i : nat) : M sess unit := fun s =>
  match nth_error (o_dims (fst s)) i with
  | None => (s, Ok tt)
  | Some x =>
      match do_id x with
      | Some _ => (s, Ok tt)
      | None => match lib_def_dim (do_dim x) (snd s) with
                | None => (s, Err FileIOError)
                | Some (f, id) => ((set_dims (upd (o_dims (fst s)) i (mk_dimobj (do_dim x) (Some id))) (fst s), f), Ok tt)
                end
      end
  end.
(** 762-778 [define_netcdf_variables]; 2046-2053: the numbers of the dimensions, -1
    for those without number. *)
Definition ids_at (o : fobj) (refs : list nat) : option (list nat) :=
  fold_right (fun i r => match r, nth_error (o_dims o) i with
                         | Some l, Some x => match do_id x with Some k => Some (k :: l) | None => None end
                         | _, _ => None
                         end) (Some []) refs.
Definition define_var (i : nat) : M sess unit := fun s =>
  match nth_error (o_vars (fst s)) i with
  | None => (s, Ok tt)
  | Some x =>
      match vo_id x with
      | Some _ => (s, Ok tt)
      | None =>
          match ids_at (fst s) (vo_refs x) with
          | None => (s, Err FileIOError)
          | Some ids =>
              match lib_def_var (v_name (vo_var x)) ids (snd s) with
              | None => (s, Err FileIOError)
              | Some (f, id) => ((set_vars (upd (o_vars (fst s)) i (mk_varobj (vo_var x) (vo_hidden x) (vo_refs x) (Some id))) (fst s), f), Ok tt)
              end
          end
      end
  end.
Definition define_all : M sess unit := fun s =>
  (do _ <- meach define_dim (seq 0 (length (o_dims (fst s))));
   do _ <- meach define_var (seq 0 (length (o_vars (fst s))));
   mret tt) s.

(** 797-834 [register_netcdf_dimension_ids], 837-862
    [register_netcdf_variable_ids]: by name.  The length of the unlimited dimension
    of the file is not modelled; 1402-1411: it must be [frame]. *)
Definition inq_dim (n : string) (f : nclib) : option nat := position (fun d => String.eqb (d_name d) n) (lf_dims f).
Definition inq_var (n : string) (f : nclib) : option nat := position (fun v => String.eqb (fst v) n) (lf_vars f).
Definition unlimited (f : nclib) : option nat := position (fun d => d_size d =? 0) (lf_dims f).
Definition find_dim_id (i : nat) : M sess unit := fun s =>
  match nth_error (o_dims (fst s)) i with
  | None => (s, Ok tt)
  | Some x =>
      match do_id x with
      | Some _ => (s, Ok tt)
      | None => match inq_dim (d_name (do_dim x)) (snd s) with
                | None => (s, Err FileIOError)
                | Some id =>
                    let d := match unlimited (snd s) with
                             | Some u => if (id =? u)%nat then mk_ncdim (d_name (do_dim x)) 0 else do_dim x
                             | None => do_dim x
                             end in
                    let s1 := (set_dims (upd (o_dims (fst s)) i (mk_dimobj (do_dim x) (Some id))) (fst s), snd s) in
                    match unlimited (snd s) with
                    | Some u => if (id =? u)%nat && negb (String.eqb (d_name (do_dim x)) "frame") then (s1, Err FileIOError)
                                else ((set_dims (upd (o_dims (fst s)) i (mk_dimobj d (Some id))) (fst s), snd s), Ok tt)
                    | None => (s1, Ok tt)
                    end
                end
      end
  end.
Definition find_var_id (i : nat) : M sess unit := fun s =>
  match nth_error (o_vars (fst s)) i with
  | None => (s, Ok tt)
  | Some x =>
      match vo_id x with
      | Some _ => (s, Ok tt)
      | None => match inq_var (v_name (vo_var x)) (snd s) with
                | None => (s, Err FileIOError)
                | Some id => ((set_vars (upd (o_vars (fst s)) i (mk_varobj (vo_var x) (vo_hidden x) (vo_refs x) (Some id))) (fst s), snd s), Ok tt)
                end
      end
  end.
Definition find_all : M sess unit := fun s =>
  if (length (lf_dims (snd s)) <? length (o_dims (fst s)))%nat then (s, Err FileIOError) else
  (do _ <- meach find_dim_id (seq 0 (length (o_dims (fst s))));
   fun s => if (length (lf_vars (snd s)) <? length (o_vars (fst s)))%nat then (s, Err FileIOError) else
   (do _ <- meach find_var_id (seq 0 (length (o_vars (fst s)))); mret tt) s) s.

(** 64-171 [register_field_collection] of a new file ([Defining]) and of a file
    opened for reading or appending. *)
Inductive rop :=
| RGlobal (g : gcoll) (vars : list rvar)
| RLocal (lname : string) (total : Z) (pixels : list Z) (vars : list rvar).
Definition register_op (o : rop) : M fobj unit :=
  match o with
  | RGlobal g vars => register_global_coll g vars
  | RLocal n t p vars => register_local_coll n t p vars
  end.
Definition create_op (o : rop) : M sess unit := do _ <- on_obj (register_op o); define_all.
Definition open_op (o : rop) : M sess unit := do _ <- on_obj (register_op o); find_all.
(** A file object with several collections registered, one after the other. *)
Definition create_all (ops : list rop) : sess * res (list unit) := meach create_op ops (new_obj, empty_lib).
Definition open_all (f : nclib) (ops : list rop) : sess * res (list unit) := meach open_op ops (new_obj, f).
