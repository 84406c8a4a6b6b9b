(** Field collections as registries of fields (field_collection.hh/.cc,
    field_collection_global.cc, field_collection_local.cc) and registration of
    typed fields (field_typed.hh).

    Simplifications: all fields hold scalars of one abstract type, their C++
    type is an attribute ([ftype]); map initialisation callbacks are not
    stored (the effect of a callback is [FieldModel.initialise_map]);
    nb_domain_grid_pts and spatial_dim are not stored. *)
From Coq Require Import String.
From Verif Require Import Base CIntModel GridModel StridedModel UnitsModel LayoutModel FieldModel.
Local Open Scope string_scope.
Local Open Scope Z_scope.
Local Open Scope list_scope.

(** ** [std::map<std::string, V>]: association lists ordered by key *)
Fixpoint lookup {V} (k : string) (m : list (string * V)) : option V :=
  match m with
  | [] => None
  | (k', v) :: r => if String.eqb k k' then Some v else lookup k r
  end.
Fixpoint insert {V} (k : string) (v : V) (m : list (string * V)) : list (string * V) :=
  match m with
  | [] => [(k, v)]
  | (k', v') :: r =>
      match String.compare k k' with
      | Lt => (k, v) :: m
      | Eq => (k, v) :: r
      | Gt => (k', v') :: insert k v r
      end
  end.
Definition erase {V} (k : string) (m : list (string * V)) : list (string * V) :=
  filter (fun p => negb (String.eqb k (fst p))) m.
Definition keys {V} (m : list (string * V)) : list string := map fst m.

(** The scalar types with which fields are instantiated (field_typed.hh:548-561). *)
Inductive ftype : Set := Real | Complex | Int | Uint | Index.
Definition ftype_eqb (a b : ftype) : bool :=
  match a, b with
  | Real, Real | Complex, Complex | Int, Int | Uint, Uint | Index, Index => true
  | _, _ => false
  end.

(** grid_common.hh: PixelTag *)
Definition pixel_tag : string := "pixel".

Section Registry.
Context {A : Type} (zero : A).

(** A registered field: sub_division_tag, unit, stored type; name is the key. *)
Record rfield := mk_rfield {
  rf_tag : string;
  rf_unit : unit_t;
  rf_type : ftype;
  rf_field : field A
}.

(** field_collection.hh:853-889: members of a collection, with what the two
    derived classes report as pixel shape and strides (in elements). *)
Record coll := mk_coll {
  c_glob : bool;
  c_order : storder;
  c_tags : list (string * Z);
  c_init : bool;
  c_npix : Z;
  c_nbuf : Z;
  c_pix : list Z;
  c_pstr : list Z;
  c_index : list Z;
  c_fields : list (string * rfield)
}.

(** A field reads its collection by reference. *)
Definition attach (c : coll) (f : field A) : field A :=
  mk_field (mk_layout (l_comp (f_lay f)) (l_nbc (f_lay f)) (l_nsub (f_lay f)) (c_order c)
                      (c_pix c) (c_pstr c) (c_npix c) (c_nbuf c))
           (c_glob c) (c_init c) (f_cur f) (f_pad f) (f_vals f) (f_cap f) (f_gen f) (f_ptr f).
Definition set_field (r : rfield) (f : field A) : rfield := mk_rfield (rf_tag r) (rf_unit r) (rf_type r) f.
Definition with_tags (c : coll) (t : list (string * Z)) : coll :=
  mk_coll (c_glob c) (c_order c) t (c_init c) (c_npix c) (c_nbuf c) (c_pix c) (c_pstr c) (c_index c) (c_fields c).
Definition with_fields (c : coll) (l : list (string * rfield)) : coll :=
  mk_coll (c_glob c) (c_order c) (c_tags c) (c_init c) (c_npix c) (c_nbuf c) (c_pix c) (c_pstr c) (c_index c) l.
Definition map_fields (g : rfield -> rfield) (l : list (string * rfield)) : list (string * rfield) :=
  map (fun p => (fst p, g (snd p))) l.
Definition sync (c : coll) : coll :=
  with_fields c (map_fields (fun r => set_field r (attach c (rf_field r))) (c_fields c)).

(** field_collection.cc:284-290 [has_nb_sub_pts]; 293-298 [get_nb_sub_pts],
    which inserts the tag as unknown; 301-304 the const version, [at]. *)
Definition tag_number (c : coll) (tag : string) : option Z :=
  match lookup tag (c_tags c) with
  | Some n => if n =? unknown then None else Some n
  | None => None
  end.
Definition touch_tag (c : coll) (tag : string) : coll :=
  match tag_number c tag with
  | Some _ => c
  | None => with_tags c (insert tag unknown (c_tags c))
  end.
Definition sub_pts_of (c : coll) (tag : string) : Z :=
  match tag_number c tag with Some n => n | None => unknown end.

(** field_collection.cc:307-334 [set_nb_sub_pts] *)
Definition set_nsub (r : rfield) (n : Z) : rfield :=
  let f := rf_field r in
  let l := f_lay f in
  set_field r (with_lay f (mk_layout (l_comp l) (l_nbc l) n (l_order l) (l_pix l) (l_pstr l) (l_npix l) (l_nbuf l))).
Definition set_nb_sub_pts (c : coll) (tag : string) (n : Z) : coll * res unit :=
  match tag_number c tag with
  | Some m => if negb (m =? n) then (c, Err FieldCollectionError)
              else if n <? 1 then (c, Err FieldCollectionError)
              else (with_fields (with_tags c (insert tag n (c_tags c)))
                      (map_fields (fun r => if String.eqb (rf_tag r) tag then set_nsub r n else r) (c_fields c)), Ok tt)
  | None => if n <? 1 then (c, Err FieldCollectionError)
            else (with_fields (with_tags c (insert tag n (c_tags c)))
                    (map_fields (fun r => if String.eqb (rf_tag r) tag then set_nsub r n else r) (c_fields c)), Ok tt)
  end.

(** field_collection.cc:55-62: constructor; the user's map of sub-point
    numbers is copied without checks, then the pixel tag is set.  Pixel data
    before initialisation: default pixels for a global collection, one axis of
    unknown length for a local one (field_collection_local.cc:96-103). *)
Definition build_map (l : list (string * Z)) : list (string * Z) :=
  fold_left (fun m p => match lookup (fst p) m with Some _ => m | None => insert (fst p) (snd p) m end) l [].
Definition new_coll (glob : bool) (order : storder) (tags : list (string * Z)) : res coll :=
  let c := mk_coll glob order (build_map tags) false unknown unknown
                   (if glob then [] else [unknown]) (if glob then [] else [1]) [] [] in
  match set_nb_sub_pts c pixel_tag 1 with
  | (c', Ok _) => Ok c'
  | (_, Err e) => Err e
  | (_, UB) => UB
  end.

(** field_typed.hh:564-678 [register_field_helper]; [inl n] is the overload
    with a number of components, [inr s] the one with a component shape. *)
Definition comp_shape (comp : Z + list Z) : list Z := match comp with inl n => [n] | inr s => s end.
Definition comp_nb (comp : Z + list Z) : Z := match comp with inl n => n | inr s => get_nb_from_shape s end.
Definition comp_agrees (f : field A) (comp : Z + list Z) : bool :=
  match comp with inl n => l_nbc (f_lay f) =? n | inr s => zlist_eqb (l_comp (f_lay f)) s end.
Definition register_field (c : coll) (name : string) (ty : ftype) (comp : Z + list Z) (tag : string)
    (u : unit_t) (allow_existing : bool) : coll * res unit :=
  match lookup name (c_fields c) with
  | Some r =>
      if allow_existing then
        if negb (ftype_eqb (rf_type r) ty) then (c, Err RuntimeError)
        else if negb (comp_agrees (rf_field r) comp) then (c, Err FieldCollectionError)
        else if negb (String.eqb (rf_tag r) tag) then (c, Err FieldCollectionError)
        else if negb (unit_eqb (rf_unit r) u) then (c, Err FieldCollectionError)
        else (c, Ok tt)
      else (c, Err FieldCollectionError)
  | None =>
      let c1 := touch_tag c tag in
      let lay := mk_layout (comp_shape comp) (comp_nb comp) (sub_pts_of c1 tag) (c_order c)
                           (c_pix c) (c_pstr c) (c_npix c) (c_nbuf c) in
      let f := new_field lay (c_glob c) (c_init c) in
      if c_init c then
        match resize zero f with
        | (f', Ok _) => (with_fields c1 (insert name (mk_rfield tag u ty f') (c_fields c1)), Ok tt)
        | (_, Err e) => (c1, Err e)
        | (_, UB) => (c1, UB)
        end
      else (with_fields c1 (insert name (mk_rfield tag u ty f) (c_fields c1)), Ok tt)
  end.

(** field_collection.cc:406-413 [get_field], 416-428 [pop_field], 442-448
    [list_fields]; the attributes of the popped field are the result. *)
Definition get_field (c : coll) (name : string) : res rfield :=
  match lookup name (c_fields c) with Some r => Ok r | None => Err FieldCollectionError end.
Definition pop_field (c : coll) (name : string) : coll * res rfield :=
  match lookup name (c_fields c) with
  | Some r => (with_fields c (erase name (c_fields c)), Ok r)
  | None => (c, Err FieldCollectionError)
  end.
Definition list_fields (c : coll) : list string := keys (c_fields c).

(** field_collection.cc:374-393 [allocate_fields]: in the order of the names;
    fields handled before the first failure stay resized. *)
Fixpoint allocate_fields (l : list (string * rfield)) : list (string * rfield) * res unit :=
  match l with
  | [] => ([], Ok tt)
  | (k, r) :: rest =>
      let f := rf_field r in
      if negb (f_cur f =? 0) && negb (f_cur f =? nb_entries f) then (l, Err FieldCollectionError)
      else
        match resize zero f with
        | (f', Ok _) => let '(rest', o) := allocate_fields rest in ((k, set_field r f') :: rest', o)
        | (f', o) => ((k, set_field r f') :: rest, o)
        end
  end.

Definition with_pixels (c : coll) (npix nbuf : Z) (pix pstr : list Z) : coll :=
  sync (mk_coll (c_glob c) (c_order c) (c_tags c) (c_init c) npix nbuf pix pstr (c_index c) (c_fields c)).
(** The end of both [initialise] functions: allocation, then the flag. *)
Definition finish_init (c : coll) (index : list Z) : coll * res unit :=
  match allocate_fields (c_fields c) with
  | (l, Ok _) =>
      (sync (mk_coll (c_glob c) (c_order c) (c_tags c) true (c_npix c) (c_nbuf c) (c_pix c) (c_pstr c) index l), Ok tt)
  | (l, o) => (with_fields c l, o)
  end.

(** field_collection_local.cc:54-63 [add_pixel], 66-75 [initialise] *)
Definition add_pixel (c : coll) (i : Z) : coll * res unit :=
  if c_init c then (c, Err FieldCollectionError)
  else (mk_coll (c_glob c) (c_order c) (c_tags c) (c_init c) (c_npix c) (c_nbuf c) (c_pix c) (c_pstr c)
                (c_index c ++ [i]) (c_fields c), Ok tt).
Definition init_local (c : coll) : coll * res unit :=
  if c_init c then (c, Err FieldCollectionError)
  else
    let n := Z.of_nat (Datatypes.length (c_index c)) in
    finish_init (with_pixels c n n [n] [1]) (c_index c).

(** field_collection_global.cc:86-131 [initialise] with pixel strides; [nsd]
    is the subdomain, empty for the whole domain.  The sort of the axes only
    affects the order in which pixels are visited, not the layout. *)
Definition init_global (c : coll) (nd nsd loc pstr : list Z) : coll * res unit :=
  let n := if (Datatypes.length nsd =? 0)%nat then nd else nsd in
  if get_nb_from_shape nd <=? 0 then (c, Err FieldCollectionError)
  else if get_nb_from_shape n <? 0 then (c, Err FieldCollectionError)
  else if c_init c then (c, Err FieldCollectionError)
  else
    match pixels_strided n loc pstr, get_buffer_size n pstr with
    | Ok p, Ok nbuf => finish_init (with_pixels c (get_size n) nbuf n pstr) (zrange (Z.to_nat (get_size n)))
    | Err e, _ => (c, Err e)
    | _, Err e => (c, Err e)
    | _, _ => (c, UB)
    end.
(** 134-150: with a storage order for the pixels. *)
Definition init_global_order (c : coll) (nd nsd loc : list Z) (o : storder) : coll * res unit :=
  let n := if (Datatypes.length nsd =? 0)%nat then nd else nsd in
  let o' := match o with Automatic => c_order c | _ => o end in
  match pixel_strides_for o' n with
  | Ok s => init_global c nd n loc s
  | Err e => (c, Err e)
  | UB => (c, UB)
  end.

(** Operations on a registered field. *)
Definition on_field (c : coll) (name : string) (op : field A -> field A * res unit) : coll * res unit :=
  match lookup name (c_fields c) with
  | None => (c, Err FieldCollectionError)
  | Some r => let '(f', o) := op (rf_field r) in (with_fields c (insert name (set_field r f') (c_fields c)), o)
  end.
Definition keep (r : field A -> res (field A)) (f : field A) : field A * res unit :=
  match r f with Ok f' => (f', Ok tt) | Err e => (f, Err e) | UB => (f, UB) end.
(** field.cc:140-159 [reshape] with a tag: the number of sub-points is asked
    from the collection, which notes an unknown tag. *)
Definition reshape_tag (c : coll) (name : string) (shape : list Z) (tag : string) : coll * res unit :=
  match lookup name (c_fields c) with
  | None => (c, Err FieldCollectionError)
  | Some r =>
      let c1 := touch_tag c tag in
      match field_reshape (rf_field r) shape (Some (sub_pts_of c1 tag)) with
      | Ok f' => (with_fields c1 (insert name (mk_rfield tag (rf_unit r) (rf_type r) f') (c_fields c1)), Ok tt)
      | Err e => (c1, Err e)
      | UB => (c1, UB)
      end
  end.

(** The public operations that change a collection. *)
Inductive op : Type :=
| ORegister (name : string) (ty : ftype) (comp : Z + list Z) (tag : string) (u : unit_t) (allow_existing : bool)
| OPop (name : string)
| OSetSubPts (tag : string) (n : Z)
| OAddPixel (i : Z)
| OInitLocal
| OInitGlobal (nd nsd loc pstr : list Z)
| OInitGlobalOrder (nd nsd loc : list Z) (o : storder)
| OSetPad (name : string) (p : Z)
| OPush (name : string) (v : list A)
| OPushSingle (name : string) (v : list A)
| OReshape (name : string) (shape : list Z)
| OReshapeTag (name : string) (shape : list Z) (tag : string)
| OWrite (name : string) (i : Z) (x : A).  (* a write through any view of the field *)

Definition step (c : coll) (o : op) : coll * res unit :=
  match o with
  | ORegister name ty comp tag u allow => register_field c name ty comp tag u allow
  | OPop name => let '(c', r) := pop_field c name in
                 (c', match r with Ok _ => Ok tt | Err e => Err e | UB => UB end)
  | OSetSubPts tag n => set_nb_sub_pts c tag n
  | OAddPixel i => if c_glob c then (c, Err FieldCollectionError) else add_pixel c i
  | OInitLocal => if c_glob c then (c, Err FieldCollectionError) else init_local c
  | OInitGlobal nd nsd loc pstr => if c_glob c then init_global c nd nsd loc pstr else (c, Err FieldCollectionError)
  | OInitGlobalOrder nd nsd loc o => if c_glob c then init_global_order c nd nsd loc o else (c, Err FieldCollectionError)
  | OSetPad name p => on_field c name (fun f => set_pad_size zero f p)
  | OPush name v => on_field c name (keep (fun f => push_back f v))
  | OPushSingle name v => on_field c name (keep (fun f => push_back_single f v))
  | OReshape name s => on_field c name (keep (fun f => field_reshape f s None))
  | OReshapeTag name s tag => reshape_tag c name s tag
  | OWrite name i x => on_field c name (keep (fun f => let! v := wr (f_vals f) i x in Ok (with_vals f v)))
  end.

(** States reached by a history of operations, whatever their outcome. *)
Definition run (c : coll) (h : list op) : coll := fold_left (fun s o => fst (step s o)) h c.
End Registry.
Arguments rfield A : clear implicits.
Arguments coll A : clear implicits.
Arguments op A : clear implicits.

(** ** Iteration over sub-point indices (field_collection.hh:944-1063) *)

(** field_collection.cc:534-583 [check_initialised_nb_sub_pts] for sub-point
    iteration with unspecified stride: the registered number. *)
Definition index_stride {A} (c : coll A) (tag : string) : res Z :=
  match tag_number c tag with Some n => Ok n | None => Err FieldCollectionError end.
(** hh:1026-1033 increment, 1048-1050 dereference.  An iterator is the
    position in pixel_indices and the offset; the end iterator is (number of
    pixels, 0); a stride of zero divides by zero. *)
Definition index_next (stride : Z) (it : nat * Z) : res (nat * Z) :=
  let '(k, o) := it in
  if stride =? 0 then UB
  else let o' := Z.rem (o + 1) stride in Ok (if o' =? 0 then S k else k, o').
Definition index_deref (pix : list Z) (stride : Z) (it : nat * Z) : res Z :=
  let '(k, o) := it in
  match nth_error pix k with Some p => Ok (p * stride + o) | None => UB end.
Fixpoint index_loop (fuel : nat) (pix : list Z) (stride : Z) (it : nat * Z) : res (list Z) :=
  if (fst it =? length pix)%nat && (snd it =? 0) then Ok []
  else match fuel with
  | O => UB
  | S n =>
      let! x := index_deref pix stride it in
      let! it' := index_next stride it in
      let! r := index_loop n pix stride it' in
      Ok (x :: r)
  end.
Definition index_iterate {A} (c : coll A) (tag : string) (fuel : nat) : res (list Z) :=
  let! s := index_stride c tag in index_loop fuel (c_index c) s (O, 0).
Definition index_size {A} (c : coll A) (tag : string) : res Z :=
  let! s := index_stride c tag in Ok (c_npix c * s).

(** ** Unique names (field_collection.cc:586-597) *)
From Coq Require Import DecimalString NArith.
Definition decimal (n : N) : string := NilZero.string_of_uint (N.to_uint n).
Definition generated_name (counter : N) : string := ("generated_unique_name_" ++ decimal counter)%string.
(** The loop: the counter is static, i.e. shared by all collections and
    calls; [fuel] bounds the number of iterations. *)
Fixpoint unique_name_loop (fuel : nat) (exists_ : string -> bool) (counter : N) : option (string * N) :=
  match fuel with
  | O => None
  | S k =>
      let name := generated_name counter in
      if exists_ name then unique_name_loop k exists_ (N.succ counter) else Some (name, N.succ counter)
  end.
