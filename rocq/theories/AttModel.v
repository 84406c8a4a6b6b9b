(** Attributes, open modes and the define/data mode of NetCDF files
    (file_io_netcdf.cc, file_io_netcdf.hh).

    The NetCDF library is modelled by the rules of its classic file model, on
    the part of a file that matters here: global attributes, the names and
    attributes of variables, and the list of values written.  Names are byte
    strings without Unicode normalisation; values are the bytes the library is
    handed.  Dimensions, hidden variables of local collections and the checks of
    frame numbers are in NetCDFModel.v and FrameModel.v and left out.  The file on
    disk changes when it is created and when it is closed. *)
From Coq Require Import String Ascii.
From Verif Require Import Base.
Local Open Scope Z_scope.
Local Open Scope list_scope.

(** ** The library *)

(** [nc_type] *)
Inductive nctype := TByte | TChar | TShort | TInt | TFloat | TDouble | TUByte | TUShort | TUInt | TInt64 | TUInt64.
Definition nctype_eqb (a b : nctype) : bool :=
  match a, b with
  | TByte, TByte | TChar, TChar | TShort, TShort | TInt, TInt | TFloat, TFloat | TDouble, TDouble
  | TUByte, TUByte | TUShort, TUShort | TUInt, TUInt | TInt64, TInt64 | TUInt64, TUInt64 => true
  | _, _ => false
  end.
(** Bytes per element. *)
Definition tsize (t : nctype) : nat :=
  match t with
  | TByte | TChar | TUByte => 1
  | TShort | TUShort => 2
  | TInt | TFloat | TUInt => 4
  | TDouble | TInt64 | TUInt64 => 8
  end%nat.

Definition bytes := list Z.
Record att := mk_att { a_name : string; a_type : nctype; a_val : bytes }.
(** A variable with its attributes; a value written: variable, frame, value. *)
Record var := mk_var { v_name : string; v_atts : list att }.
Record content := mk_content { c_gatts : list att; c_vars : list var; c_data : list (nat * Z * Z) }.
(** An open file: writable, in define mode, what it holds. *)
Record lib := mk_lib { l_rw : bool; l_def : bool; l_c : content }.

Inductive ncerr := EBadId | EExist | ENoFile | EPerm | ENotInDefine | EInDefine | ENotAtt | ENotVar | ENameInUse | EBadName.

(** [NC_check_name]: a letter, digit, underscore or byte beyond ASCII, then
    printable characters without slash, no space at the end, at most 256. *)
Definition code (a : ascii) : Z := Z.of_nat (nat_of_ascii a).
Definition first_ok (a : ascii) : bool :=
  let n := code a in
  ((48 <=? n) && (n <=? 57)) || ((65 <=? n) && (n <=? 90)) || ((97 <=? n) && (n <=? 122)) || (n =? 95) || (128 <=? n).
Fixpoint rest_ok (s : string) : bool :=
  match s with
  | EmptyString => true
  | String a r => let n := code a in ((32 <=? n) && (n <=? 126) || (128 <=? n)) && negb (n =? 47) && rest_ok r
  end.
Fixpoint last_char (s : string) : option ascii :=
  match s with EmptyString => None | String a EmptyString => Some a | String _ r => last_char r end.
Definition legal_name (s : string) : bool :=
  match s with
  | EmptyString => false
  | String a r => first_ok a && rest_ok r && negb (match last_char s with Some b => code b =? 32 | None => false end)
                  && (String.length s <=? 256)%nat
  end.

Definition find_att (n : string) (l : list att) : option att := find (fun a => String.eqb (a_name a) n) l.
(** The space of a value in the file: multiples of four bytes. *)
Definition space (v : bytes) : nat := (4 * ((List.length v + 3) / 4))%nat.
Fixpoint replace_att (n : string) (b : att) (l : list att) : list att :=
  match l with
  | [] => []
  | a :: r => if String.eqb (a_name a) n then b :: r else a :: replace_att n b r
  end.
(** [nc_put_att] on the attributes of a variable or on the global ones *)
Definition put_att (f : lib) (l : list att) (b : att) : ncerr + list att :=
  if negb (l_rw f) then inl EPerm
  else match find_att (a_name b) l with
       | Some a =>
           if l_def f then (if legal_name (a_name b) then inr (replace_att (a_name b) b l) else inl EBadName)
           else if (space (a_val a) <? space (a_val b))%nat then inl ENotInDefine
           else inr (replace_att (a_name b) b l)
       | None =>
           if negb (l_def f) then inl ENotInDefine
           else if legal_name (a_name b) then inr (l ++ [b]) else inl EBadName
       end.
(** [nc_rename_att] on the global attributes *)
Definition rename_att (f : lib) (l : list att) (old new : string) : ncerr + list att :=
  if negb (l_rw f) then inl EPerm
  else if negb (legal_name new) then inl EBadName
  else match find_att old l with
       | None => inl ENotAtt
       | Some a =>
           match find_att new l with
           | Some _ => inl ENameInUse
           | None => if negb (l_def f) && (String.length old <? String.length new)%nat then inl ENotInDefine
                     else inr (replace_att old (mk_att new (a_type a) (a_val a)) l)
           end
       end.

Definition set_gatts (f : lib) (l : list att) : lib := mk_lib (l_rw f) (l_def f) (mk_content l (c_vars (l_c f)) (c_data (l_c f))).
Definition set_lvars (f : lib) (l : list var) : lib := mk_lib (l_rw f) (l_def f) (mk_content (c_gatts (l_c f)) l (c_data (l_c f))).
Definition lib_put_gatt (b : att) (f : lib) : ncerr + lib :=
  match put_att f (c_gatts (l_c f)) b with inl e => inl e | inr l => inr (set_gatts f l) end.
Definition lib_rename_gatt (old new : string) (f : lib) : ncerr + lib :=
  match rename_att f (c_gatts (l_c f)) old new with inl e => inl e | inr l => inr (set_gatts f l) end.
Definition lib_put_vatt (id : nat) (b : att) (f : lib) : ncerr + lib :=
  match nth_error (c_vars (l_c f)) id with
  | None => inl ENotVar
  | Some v => match put_att f (v_atts v) b with
              | inl e => inl e
              | inr l => inr (set_lvars f (upd (c_vars (l_c f)) id (mk_var (v_name v) l)))
              end
  end.
(** [nc_redef], [nc_enddef] *)
Definition lib_redef (f : lib) : ncerr + lib :=
  if negb (l_rw f) then inl EPerm else if l_def f then inl EInDefine else inr (mk_lib (l_rw f) true (l_c f)).
Definition lib_enddef (f : lib) : ncerr + lib :=
  if l_def f then inr (mk_lib (l_rw f) false (l_c f)) else inl ENotInDefine.
(** [nc_def_var]; the new variable has the next number. *)
Definition lib_def_var (n : string) (f : lib) : ncerr + lib :=
  if negb (l_rw f) then inl EPerm
  else if negb (l_def f) then inl ENotInDefine
  else if negb (legal_name n) then inl EBadName
  else if existsb (fun v => String.eqb (v_name v) n) (c_vars (l_c f)) then inl ENameInUse
  else inr (set_lvars f (c_vars (l_c f) ++ [mk_var n []])).
(** [nc_put_varm]; [nc_get_varm] is refused in the same cases, but for writing. *)
Definition lib_put_var (id : option nat) (frame value : Z) (f : lib) : ncerr + lib :=
  if negb (l_rw f) then inl EPerm
  else if l_def f then inl EInDefine
  else match id with
       | Some i => if (i <? List.length (c_vars (l_c f)))%nat
                   then inr (mk_lib (l_rw f) (l_def f) (mk_content (c_gatts (l_c f)) (c_vars (l_c f)) (c_data (l_c f) ++ [(i, frame, value)])))
                   else inl ENotVar
       | None => inl ENotVar
       end.
Definition lib_get_var (id : option nat) (f : lib) : ncerr + lib :=
  if l_def f then inl EInDefine
  else match id with
       | Some i => if (i <? List.length (c_vars (l_c f)))%nat then inr f else inl ENotVar
       | None => inl ENotVar
       end.

(** ** The object *)

(** file_io_base.hh 119 [OpenMode]; file_io_netcdf.hh 1213 [NetCDFMode] *)
Inductive omode := ORead | OWrite | OOverwrite | OAppend.
Inductive nmode := MUndefined | MDefine | MData.
(** file_io_netcdf.hh 302-450 [NetCDFAtt], 456-560 [NetCDFGlobalAtt]: name, type,
    [nelems], the bytes of the vector for this type, [value_initialised] and
    (for global ones) [is_written].  [nelems] is the length of the vector except
    before the value of an attribute found in a file is read. *)
Record matt := mk_matt { m_name : string; m_type : nctype; m_n : nat; m_val : bytes; m_init : bool; m_written : bool }.
(** The part of [NetCDFVarBase] that matters: name, [id], attributes. *)
Record mvar := mk_mvar { w_name : string; w_id : option nat; w_atts : list matt }.
Record session := mk_session {
  s_mode : omode; s_flag : nmode;
  s_changed : bool;      (* netcdf_file_changed *)
  s_gdef : bool;         (* global_attributes_defined *)
  s_atts : list matt;    (* global_attributes *)
  s_vars : list mvar     (* variables *)
}.
(** The object, the file it has open, and the file on disk. *)
Record st := mk_st { s_o : session; s_lib : option lib; s_disk : option content }.

(** Functions that may throw, with the state they leave behind. *)
Definition M (A : Type) := st -> st * res A.
Definition ret {A} (a : A) : M A := fun s => (s, Ok a).
Definition throw {A} : M A := fun s => (s, Err FileIOError).
Definition undef {A} : M A := fun s => (s, UB).
Definition mbind {A B} (m : M A) (k : A -> M B) : M B :=
  fun s => match m s with (s', Ok a) => k a s' | (s', Err e) => (s', Err e) | (s', UB) => (s', UB) end.
Notation "'do' x <- a ; b" := (mbind a (fun x => b)) (at level 200, x pattern, a at level 100, b at level 200).
Notation "'run' a ; b" := (mbind a (fun _ => b)) (at level 200, a at level 100, b at level 200).
Definition obj : M session := fun s => (s, Ok (s_o s)).
Definition upd_obj (g : session -> session) : M unit := fun s => (mk_st (g (s_o s)) (s_lib s) (s_disk s), Ok tt).
(** A call of the library and its status. *)
Definition call (f : lib -> ncerr + lib) : M (option ncerr) :=
  fun s => match s_lib s with
           | None => (s, Ok (Some EBadId))
           | Some l => match f l with
                       | inl e => (s, Ok (Some e))
                       | inr l' => (mk_st (s_o s) (Some l') (s_disk s), Ok None)
                       end
           end.
(** [if (status != NC_NOERR) throw FileIOError(...)] *)
Definition check (f : lib -> ncerr + lib) : M unit := do e <- call f; match e with None => ret tt | Some _ => throw end.
(** Inquiries. *)
Definition inquire {A} (g : content -> A) : M A :=
  fun s => match s_lib s with None => (s, Err FileIOError) | Some l => (s, Ok (g (l_c l))) end.
Fixpoint each {A} (f : A -> M unit) (l : list A) : M unit :=
  match l with [] => ret tt | a :: r => run f a; each f r end.

Definition set_flag (m : nmode) : M unit := upd_obj (fun o => mk_session (s_mode o) m (s_changed o) (s_gdef o) (s_atts o) (s_vars o)).
Definition set_changed : M unit := upd_obj (fun o => mk_session (s_mode o) (s_flag o) true (s_gdef o) (s_atts o) (s_vars o)).
Definition set_gdef : M unit := upd_obj (fun o => mk_session (s_mode o) (s_flag o) (s_changed o) true (s_atts o) (s_vars o)).
Definition set_atts (l : list matt) : M unit := upd_obj (fun o => mk_session (s_mode o) (s_flag o) (s_changed o) (s_gdef o) l (s_vars o)).
Definition set_vars (l : list mvar) : M unit := upd_obj (fun o => mk_session (s_mode o) (s_flag o) (s_changed o) (s_gdef o) (s_atts o) l).

Definition writes (m : omode) : bool := match m with OWrite | OOverwrite => true | _ => false end.
Definition is_flag (a b : nmode) : bool :=
  match a, b with MUndefined, MUndefined | MDefine, MDefine | MData, MData => true | _, _ => false end.

(** file_io_netcdf.cc 1138-1147 [netcdf_file_changes] *)
Definition netcdf_file_changes : M unit :=
  do o <- obj;
  match s_mode o with ORead => ret tt | _ => set_changed end.

(** file_io_netcdf.hh 201-205: the five types with a vector *)
Definition supported (t : nctype) : bool :=
  match t with TChar | TInt | TUInt | TInt64 | TDouble => true | _ => false end.
(** 1415-1459 [NetCDFAtt] with a value; [v] is a value of type [t]. *)
Definition new_matt (n : string) (t : nctype) (v : bytes) : matt := mk_matt n t (List.length v / tsize t) v true false.
Definition has_att (n : string) (l : list matt) : bool := existsb (fun m => String.eqb (m_name m) n) l.
Definition to_att (m : matt) : att := mk_att (m_name m) (m_type m) (m_val m).

(** 2002-2015 [check_global_attribute_name], .hh 1065-1073 [add_attribute] *)
Definition add_attribute (n : string) (t : nctype) (v : bytes) : M unit :=
  do o <- obj;
  if has_att n (s_atts o) then throw else set_atts (s_atts o ++ [new_matt n t v]).
(** .hh 1412-1430 *)
Definition write_global_attribute (n : string) (t : nctype) (v : bytes) : M unit :=
  do o <- obj;
  if s_gdef o then throw
  else if negb (writes (s_mode o)) then throw
  else add_attribute n t v.

(** 931-981 [define_global_attributes]; the attribute at position [i] *)
Definition define_one (i : nat) : M unit :=
  do o <- obj;
  match nth_error (s_atts o) i with
  | None => ret tt
  | Some m =>
      if m_written m then ret tt
      else run check (lib_put_gatt (to_att m));
           set_atts (upd (s_atts o) i (mk_matt (m_name m) (m_type m) (m_n m) (m_val m) (m_init m) true))
  end.
Definition define_global_attributes : M unit :=
  do o <- obj;
  if s_gdef o then throw
  else if negb (writes (s_mode o)) then throw
  else if negb (is_flag (s_flag o) MDefine) then throw
  else run each define_one (seq 0 (List.length (s_atts o))); set_gdef.
(** 984-1010 *)
Definition define_global_attributes_save_call : M unit :=
  do o <- obj;
  if writes (s_mode o) && negb (s_gdef o) then
    match s_flag o with
    | MData => run check lib_redef; run set_flag MDefine; run define_global_attributes; run check lib_enddef; set_flag MData
    | MDefine => define_global_attributes
    | MUndefined => ret tt
    end
  else ret tt.

(** 1806-1826 [update_attribute] and .hh 526-556 [NetCDFGlobalAtt::update_global_attribute];
    [None] if it throws *)
Definition update_matt (m : matt) (new : string) (t : nctype) (v : bytes) : option matt :=
  if negb (nctype_eqb (m_type m) t) then None
  else if (String.length (m_name m) <? String.length new)%nat then None
  else if (List.length (m_val m) <? List.length v)%nat then None
  else Some (mk_matt new t (List.length v / tsize t) v true (m_written m)).
Fixpoint position {A} (p : A -> bool) (l : list A) : option nat :=
  match l with [] => None | a :: r => if p a then Some 0%nat else match position p r with Some i => Some (S i) | None => None end end.
(** .hh 1475-1558 [update_global_attribute] *)
Definition update_global_attribute (old new : string) (t : nctype) (v : bytes) : M unit :=
  do o <- obj;
  if match s_mode o with ORead => true | _ => false end then throw
  else
  run (if is_flag (s_flag o) MData then ret tt
      else do e <- call lib_enddef;
           match e with None | Some ENotInDefine => set_flag MData | Some _ => throw end);
  do o <- obj;
  match position (fun m => String.eqb (m_name m) old) (s_atts o) with
  | None => throw
  | Some i =>
      match nth_error (s_atts o) i with
      | None => throw
      | Some m =>
          if negb (m_written m) then throw
          else match update_matt m new t v with
               | None => throw
               | Some m' =>
                   run set_atts (upd (s_atts o) i m');
                   run (if String.eqb old new then ret tt else check (lib_rename_gatt old new));
                   run check (lib_put_gatt (to_att m'));
                   netcdf_file_changes
               end
      end
  end.
(** 1080-1088; the clock is an argument *)
Definition update_global_attribute_last_modified (date time : bytes) : M unit :=
  run update_global_attribute "last_modified_date" "last_modified_date" TChar date;
  update_global_attribute "last_modified_time" "last_modified_time" TChar time.
(** 1091-1135 *)
Definition update_global_attribute_last_modified_save_call (date time : bytes) : M unit :=
  do o <- obj;
  if match s_mode o with ORead => true | _ => false end || negb (s_changed o) then ret tt
  else match s_flag o with
       | MDefine =>
           do e <- call lib_enddef;
           do was_define <- (match e with None => ret true | Some ENotInDefine => ret false | Some _ => throw end);
           run set_flag MData;
           run update_global_attribute_last_modified date time;
           if (was_define : bool) then run check lib_redef; set_flag MDefine else ret tt
       | MData =>
           do e <- call lib_enddef;
           run (match e with None | Some ENotInDefine => ret tt | Some _ => throw end);
           update_global_attribute_last_modified date time
       | MUndefined => ret tt
       end.

(** [nc_close]: leaves define mode and stores the file. *)
Definition lib_close : M unit :=
  fun s => match s_lib s with
           | None => (s, Err FileIOError)
           | Some l => (mk_st (s_o s) None (if l_rw l then Some (l_c l) else s_disk s), Ok tt)
           end.
(** 293-311 [close]; 56-60 the destructor calls it if the file is open *)
Definition close (date time : bytes) : M unit :=
  run define_global_attributes_save_call;
  run update_global_attribute_last_modified_save_call date time;
  run lib_close;
  set_flag MUndefined.

(** ** Variables *)

(** 464-566 [register_field_collection_global]: a name registered before is
    refused; the variable gets the attribute for its unit (2374-2385). *)
Definition add_var (p : string * bytes) : M unit :=
  do o <- obj;
  if existsb (fun w => String.eqb (w_name w) (fst p)) (s_vars o) then throw
  else set_vars (s_vars o ++ [mk_mvar (fst p) None [new_matt "unit" TChar (snd p)]]).

(** 762-779 [define_netcdf_variables]; the variable at position [i] *)
Definition define_var (i : nat) : M unit :=
  do o <- obj;
  match nth_error (s_vars o) i with
  | None => ret tt
  | Some w => match w_id w with
              | Some _ => ret tt
              | None => do id <- inquire (fun c => List.length (c_vars c));
                        run check (lib_def_var (w_name w));
                        set_vars (upd (s_vars o) i (mk_mvar (w_name w) (Some id) (w_atts w)))
              end
  end.
(** 782-794 [define_netcdf_attributes] *)
Definition define_vatts (w : mvar) : M unit :=
  each (fun m => match w_id w with Some id => check (lib_put_vatt id (to_att m)) | None => throw end) (w_atts w).

(** 838-861 [register_netcdf_variable_ids] *)
Definition register_var_id (i : nat) : M unit :=
  do o <- obj;
  match nth_error (s_vars o) i with
  | None => ret tt
  | Some w => match w_id w with
              | Some _ => ret tt
              | None => do id <- inquire (fun c => position (fun v => String.eqb (v_name v) (w_name w)) (c_vars c));
                        match id with
                        | Some k => set_vars (upd (s_vars o) i (mk_mvar (w_name w) (Some k) (w_atts w)))
                        | None => throw
                        end
              end
  end.
(** 1462-1478 [NetCDFAtt] without value: nine types are accepted. *)
Definition known (t : nctype) : bool := match t with TByte | TUByte => false | _ => true end.
(** 2359-2371, 1919-1933 [register_attribute]: attributes known by name stay. *)
Definition register_matt (l : list matt) (a : att) : option (list matt) :=
  if has_att (a_name a) l then Some l
  else if known (a_type a) then Some (l ++ [mk_matt (a_name a) (a_type a) (List.length (a_val a) / tsize (a_type a)) [] false false])
  else None.
(** The loops of 864-892 and 1013-1040; [buffer] is the room for a name and its
    terminating zero. *)
Fixpoint register_names (buffer : nat) (l : list matt) (file : list att) : res (list matt) :=
  match file with
  | [] => Ok l
  | a :: r => if (buffer <=? String.length (a_name a))%nat then UB
              else match register_matt l a with None => Err FileIOError | Some l' => register_names buffer l' r end
  end.
(** 1697-1735 [reserve_value_space], [ncmu_get_att], then 1737-1793
    [equal_value] or 1649-1694 [register_value] of the buffer of the attribute
    itself. [nc_get_att] copies all bytes of the attribute in the file. *)
Definition bytes_eqb (a b : bytes) : bool := if list_eq_dec Z.eq_dec a b then true else false.
(** Elements of eight bytes, least significant first: exponent all ones and a
    fraction that is not zero. *)
Definition is_nan (b : bytes) : bool :=
  match map (fun x => x mod 256) b with
  | [b0; b1; b2; b3; b4; b5; b6; b7] =>
      (b7 mod 128 =? 127) && (240 <=? b6) && negb (b0 + b1 + b2 + b3 + b4 + b5 + b6 mod 16 =? 0)
  | _ => false
  end.
Fixpoint has_nan (n : nat) (v : bytes) : bool :=
  match n with O => false | S k => is_nan (firstn 8 v) || has_nan k (skipn 8 v) end.
(** 1737-1793: [n] elements; [double]s are compared with [==], by which a NaN
    differs from itself.  That the zeros are equal does not matter, as both
    arguments are the same bytes here. *)
Definition equal_value (t : nctype) (n : nat) (a b : bytes) : bool :=
  bytes_eqb a b && negb (nctype_eqb t TDouble && has_nan n a).
Definition read_value (file : list att) (m : matt) : res matt :=
  if negb (supported (m_type m)) then Err FileIOError
  else match find_att (m_name m) file with
       | None => Err FileIOError
       | Some a =>
           let room := (m_n m * tsize (m_type m))%nat in
           if (room <? List.length (a_val a))%nat then UB
           else let buf := a_val a ++ repeat 0 (room - List.length (a_val a)) in
                let m1 := mk_matt (m_name m) (m_type m) (m_n m) buf (m_init m) (m_written m) in
                if m_init m then if equal_value (m_type m) (m_n m) (m_val m1) (firstn room buf) then Ok m1 else Err FileIOError
                else Ok (mk_matt (m_name m) (m_type m) (m_n m) (firstn room buf) true true)
       end.
Fixpoint mapr {A B} (f : A -> res B) (l : list A) : res (list B) :=
  match l with [] => Ok [] | a :: r => let! b := f a in let! t := mapr f r in Ok (b :: t) end.
Definition lift {A} (r : res A) : M A := fun s => (s, r).

(** 864-892 and 895-928 for the variable at position [i].  The code reads the
    names of all variables before their values, which matters only for what is
    left behind by an exception. *)
Definition register_vatts (i : nat) : M unit :=
  do o <- obj;
  match nth_error (s_vars o) i with
  | None => ret tt
  | Some w =>
      do file <- inquire (fun c => match w_id w with
                                   | Some k => match nth_error (c_vars c) k with Some v => v_atts v | None => [] end
                                   | None => []
                                   end);
      do l <- lift (register_names 256 (w_atts w) (firstn 10 file));
      do l' <- lift (mapr (read_value file) l);
      set_vars (upd (s_vars o) i (mk_mvar (w_name w) (w_id w) l'))
  end.

(** 64-171 [register_field_collection] for variables with these names and
    units *)
Definition register_field_collection (vs : list (string * bytes)) : M unit :=
  run each add_var vs;
  do o <- obj;
  run (if is_flag (s_flag o) MDefine then ret tt else run check lib_redef; set_flag MDefine);
  do o <- obj;
  let all := seq 0 (List.length (s_vars o)) in
  if writes (s_mode o) then
    run each define_var all;
    do o <- obj;
    run each define_vatts (s_vars o);
    run check lib_enddef;
    run set_flag MData;
    netcdf_file_changes
  else
    do n <- inquire (fun c => List.length (c_vars c));
    if (n <? List.length (s_vars o))%nat then throw
    else run each register_var_id all; each register_vatts all.

(** 3286-3310 [get_variable], 344-393 [write] and 314-341 [read] *)
Definition get_variable (n : string) : M mvar :=
  do o <- obj;
  match find (fun w => String.eqb (w_name w) n) (s_vars o) with Some w => ret w | None => throw end.
Definition write (frame value : Z) (names : list string) : M unit :=
  run define_global_attributes_save_call;
  run each (fun n => do w <- get_variable n; check (lib_put_var (w_id w) frame value)) names;
  netcdf_file_changes.
Definition read (names : list string) : M unit :=
  each (fun n => do w <- get_variable n; check (lib_get_var (w_id w))) names.

(** ** Opening *)

Definition nothing : content := mk_content [] [] [].
(** 1956-2000: the attributes of a new file *)
Definition default_atts (info hash descr dirty date time : bytes) : list matt :=
  [new_matt "creation_date" TChar date; new_matt "creation_time" TChar time;
   new_matt "last_modified_date" TChar date; new_matt "last_modified_time" TChar time;
   new_matt "muGrid_version_info" TChar info; new_matt "muGrid_git_hash" TChar hash;
   new_matt "muGrid_description" TChar descr; new_matt "muGrid_git_branch_is_dirty" TChar dirty].
(** 174-290 [open], called by the constructor, for a file with this content or
    none on disk.  If it throws there is no object; the second component is what
    is then on disk. *)
Definition open (m : omode) (info hash descr dirty date time : bytes) (disk : option content) : res st * option content :=
  match m with
  | OWrite | OOverwrite =>
      match m, disk with
      | OWrite, Some _ => (Err FileIOError, disk)
      | _, _ => (Ok (mk_st (mk_session m MDefine false false (default_atts info hash descr dirty date time) [])
                           (Some (mk_lib true true nothing)) (Some nothing)), Some nothing)
      end
  | _ =>
      match disk with
      | None => (Err FileIOError, disk)
      | Some c =>
          (let! l := register_names 257 [] (firstn 30 (c_gatts c)) in
           let! l' := mapr (read_value (c_gatts c)) l in
           Ok (mk_st (mk_session m MDefine false false l' [])
                     (Some (mk_lib (match m with OAppend => true | _ => false end) false c)) disk), disk)
      end
  end.

(** ** Programs *)

Inductive op :=
| Register (vs : list (string * bytes))
| Write (frame value : Z) (names : list string)
| Read (names : list string)
| WriteAtt (n : string) (t : nctype) (v : bytes)
| UpdateAtt (old new : string) (t : nctype) (v : bytes).
Definition step (o : op) : M unit :=
  match o with
  | Register vs => register_field_collection vs
  | Write f x ns => write f x ns
  | Read ns => read ns
  | WriteAtt n t v => write_global_attribute n t v
  | UpdateAtt a b t v => update_global_attribute a b t v
  end.
(** file_io_netcdf.cc 455-465 [read_global_attribute], [read_global_attribute_names] *)
Definition read_global_attribute (n : string) (s : st) : option matt := find (fun m => String.eqb (m_name m) n) (s_atts (s_o s)).
Definition read_global_attribute_names (s : st) : list string := map m_name (s_atts (s_o s)).
