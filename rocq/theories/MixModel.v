(** Programs that hold their data in arrays on fields of a global collection and of
    local collections, and keep it in one file: StackModel.v extended by local
    collections.

    Every process has one global collection, which it registers first, and local
    collections, each of which has a name (field_collection_local.cc:41-51).  There are no
    state fields here (see ResumeModel.v), and attributes are left out.  All processes
    make the same calls on the file; what they do to their arrays differs. *)
From Coq Require Import String.
From Verif Require Import Base GridModel StridedModel UnitsModel LayoutModel FieldModel RegistryModel NumpyModel PyArrayModel.
From Verif Require Import FrameModel CommModel NetCDFModel SessionModel StackModel.
Local Open Scope Z_scope.
Local Open Scope list_scope.

Section Mix.
Context {A : Type} (zero junk : A).

(** A process: the global collection with its arrays, and the local ones by their
    names.  A local collection has no domain, these members of [member] are empty. *)
Record player := mk_player {
  y_base : member A;
  y_locals : string -> option (member A)
}.
(** The collection [p]: the global one, or the local one with this name. *)
Definition slot (y : player) (p : option string) : option (member A) :=
  match p with None => Some (y_base y) | Some l => y_locals y l end.
Definition alter (y : player) (p : option string) (m : member A) : player :=
  match p with
  | None => mk_player m (y_locals y)
  | Some l => mk_player (y_base y) (set_at l (Some m) (y_locals y))
  end.

(** ** Fields and their memory, as the file sees them *)

(** 2317-2341, 3282-3312: a variable knows the collection of its field. *)
Definition where_of (vs : list svar) (name : string) : option string :=
  match get_variable vs name with Some v => sv_local v | None => None end.
(** field_collection.hh [get_pixel_ids] *)
Definition pixel_ids (m : member A) : list Z := c_index (p_coll (m_py m)).
Definition ids_of (y : player) (l : string) : list Z :=
  match y_locals y l with Some m => pixel_ids m | None => [] end.
Definition field_at (vs : list svar) (y : player) (name : string) : nfield :=
  nfield_of (match slot y (where_of vs name) with Some m => m | None => y_base y end) name.
Definition values_at (vs : list svar) (y : player) (name : string) : list A :=
  match slot y (where_of vs name) with Some m => values m name | None => [] end.
Definition put_at (vs : list svar) (y : player) (name : string) (v : list A) : player :=
  match slot y (where_of vs name) with Some m => alter y (where_of vs name) (put_values m name v) | None => y end.
Definition player_part (vs : list svar) (y : player) : part :=
  mk_part (pt_sub (part_of (y_base y))) (ids_of y) (field_at vs y).

(** ** Registration *)

(** 639-695: the fields of local collection [l]; [total] is the number of its pixels on
    all processes, [pixels] the positions of this process. *)
Fixpoint register_locals (l : string) (total : Z) (pixels : list Z) (known : list string) (m : member A)
    (names : list string) : res (list svar) :=
  match names with
  | [] => Ok []
  | n :: rest =>
      if existsb (String.eqb n) known then Err FileIOError
      else
        let! r := get_field (p_coll (m_py m)) n in
        let! v := register_local total None n (field_for m n r) pixels in
        let! _ := if ftype_eqb (rf_type r) Complex then Err FileIOError else Ok tt in
        let! vs := register_locals l total pixels (n :: known) m rest in
        Ok (mk_svar v (Some l) :: vs)
  end.
(** 577-696 [register_field_collection_local], collection after collection, by process
    [i].  698-742: a second field of positions with the same name is refused by
    [GFC_local_pixels]; the program passes the collection itself, so that it exists.  The
    positions have the domain of the global collection, which was seen before. *)
Fixpoint register_colls (md : smode) (parts : list part) (i : nat) (y : player) (known colls : list string)
    (ls : list (string * list string)) : res (list svar * (string -> ncvar)) :=
  match ls with
  | [] => Ok ([], fun _ => mk_ncvar EmptyString [] None)
  | (l, names) :: rest =>
      match y_locals y l with
      | None => Err KeyError
      | Some m =>
          if existsb (String.eqb l) colls then Err FieldCollectionError
          else
            let! hs := first_positions (A := A) md parts l in
            if existsb (String.eqb l) known then Err FileIOError
            else
              let! hv := snd (register_global (firstn 3 (m_dom (y_base y) ++ [0; 0; 0])) true None l (pt_sub (part_of (y_base y)))) in
              let total := zsum (map (fun p => Z.of_nat (length (pt_ids p l))) parts) in
              let! vs := register_locals l total (nth i hs []) (l :: known) m names in
              let! x := register_colls md parts i y (names ++ l :: known) (l :: colls) rest in
              Ok (vs ++ fst x, set_at l hv (snd x))
      end
  end.
(** 467-573, then the local collections. *)
Definition register_player (md : smode) (parts : list part) (gnames : list string) (ls : list (string * list string))
    (x : nat * player) : res (list svar * (string -> ncvar)) :=
  let! gs := register_names [0; 0; 0] [] (y_base (snd x)) gnames in
  let! r := register_colls md parts (fst x) (snd x) gnames [] ls in
  Ok (gs ++ fst r, snd r).
(** All processes register; the definitions of the first one are those of the file. *)
Definition setup_mix (md : smode) (ys : list player) (gnames : list string) (ls : list (string * list string)) : res setup :=
  let! rs := mapm (register_player md (map (player_part []) ys) gnames ls) (combine (seq 0 (length ys)) ys) in
  match rs with
  | [] => Err FileIOError
  | (vs, hidden) :: _ => Ok (mk_setup vs (map fst ls) hidden (map (player_part vs) ys))
  end.
Definition memory_mix (vs : list svar) (ys : list player) (name : string) (h : Z) : list (list A) :=
  map (fun y => values_at vs y name) ys.
(** What a transfer from the file left in memory. *)
Definition fetch_player (vs : list svar) (i : nat) (mem : string -> Z -> list (list A)) (names : list string) (y : player) : player :=
  fold_left (fun y n => put_at vs y n (nth i (mem n 0) [])) names y.
Fixpoint fetch_players (vs : list svar) (i : nat) (mem : string -> Z -> list (list A)) (names : list string) (ys : list player) : list player :=
  match ys with
  | [] => []
  | y :: r => fetch_player vs i mem names y :: fetch_players vs (S i) mem names r
  end.

(** ** Programs *)

(** As in StackModel.v. *)
Record ystate := mk_ystate {
  z_players : list player;
  z_file : option (SessionModel.session A);
  z_open : bool
}.
(** [YPy]: process [i] makes a call on one of its collections.  [YCreate], [YOpen]: with
    the names of the fields of the global collection, and the local collections with the
    names of their fields. *)
Inductive ycall :=
| YPy (i : nat) (p : option string) (k : pycall A)
| YRun (next : list player)
| YCreate (gnames : list string) (ls : list (string * list string)) (c : string -> list Z -> A)
| YOpen (append : bool) (gnames : list string) (ls : list (string * list string))
| YClose
| YAppendFrame
| YWrite (k : Z) (names : list string)
| YRead (k : Z) (names : list string).

Definition vars_of (f : SessionModel.session A) : list svar := su_vars (se_setup f).
(** A call on the open file, with the fields as they are now. *)
Definition on_file (s : ystate) (o : SessionModel.op A) : option (SessionModel.session A * res unit) :=
  match z_file s, z_open s with
  | Some f, true => Some (SessionModel.step (with_mem f (memory_mix (vars_of f) (z_players s))) o)
  | _, _ => None
  end.
Definition opened (s : ystate) (r : res (SessionModel.session A)) : ystate * res unit :=
  match r with Ok f => (mk_ystate (z_players s) (Some f) true, Ok tt) | Err e => (s, Err e) | UB => (s, UB) end.
Definition opening (md : smode) (s : ystate) (gnames : list string) (ls : list (string * list string)) (hf : ncfile Z) (f : ncfile A)
  : ystate * res unit :=
  opened s (let! u := setup_mix md (z_players s) gnames ls in
            start md u (memory_mix (su_vars u) (z_players s)) hf f).
Definition ystep (s : ystate) (k : ycall) : ystate * res unit :=
  match k with
  | YPy i p c =>
      match nth_error (z_players s) i with
      | Some y =>
          match slot y p with
          | Some m => let '(m', r) := member_step zero junk m c in
                      (mk_ystate (upd (z_players s) i (alter y p m')) (z_file s) (z_open s), r)
          | None => (s, Err KeyError)
          end
      | None => (s, Err KeyError)
      end
  | YRun next => (mk_ystate next (z_file s) false, Ok tt)
  | YCreate gnames ls c => opening Creating s gnames ls (mk_ncfile 0 (fun _ _ => 0)) (mk_ncfile 0 c)
  | YOpen append gnames ls =>
      match z_file s with
      | None => (s, Err FileIOError)
      | Some f => opening (if append then Appending else Reading) s gnames ls (se_hfile f) (se_file f)
      end
  | YClose => (mk_ystate (z_players s) (z_file s) false, Ok tt)
  | YAppendFrame =>
      match on_file s AppendFrame with
      | Some (f, r) => (mk_ystate (z_players s) (Some f) true, r)
      | None => (s, Err FileIOError)
      end
  | YWrite k names =>
      match on_file s (Write k names) with
      | Some (f, r) => (mk_ystate (z_players s) (Some f) true, r)
      | None => (s, Err FileIOError)
      end
  | YRead k names =>
      match on_file s (Read k names) with
      | Some (f, r) => (mk_ystate (fetch_players (vars_of f) 0 (se_mem f) names (z_players s)) (Some f) true, r)
      | None => (s, Err FileIOError)
      end
  end.
End Mix.
Arguments player A : clear implicits.
Arguments ystate A : clear implicits.
Arguments ycall A : clear implicits.
