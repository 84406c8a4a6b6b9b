(** Coordinates, shapes and numbers as arguments of Python calls
    (bind_py_common_mugrid.cc, bind_py_field_collection.cc): what the C++ functions get.
    The rules of pybind11 2.11.1 for numbers are those of PyCommModel.v; those for
    sequences are stated here and trusted. *)
From Verif Require Import Base GridModel CoordModel RegistryModel PyCommModel.
Local Open Scope Z_scope.
Local Open Scope list_scope.

(** A number; a sequence of numbers ([list], [tuple], or an array of numpy with one
    dimension); a [DynCcoord] with its entries; anything else. *)
Inductive seqkind := KList | KTuple | KArray.
Inductive pyarg := ANum (x : pynum) | ASeq (k : seqkind) (l : list pynum) | ACoord (l : list Z) | AOther.

Definition load64 (convert : bool) (x : pynum) : option Z :=
  match load_scalar convert CIndex x with Some (VZ n) => Some n | _ => None end.
Fixpoint load_all (convert : bool) (l : list pynum) : option (list Z) :=
  match l with
  | [] => Some []
  | x :: r => match load64 convert x, load_all convert r with Some n, Some s => Some (n :: s) | _, _ => None end
  end.
(** [Index_t]: also an array of one element if conversion is allowed, by [int()] *)
Definition load_index (convert : bool) (a : pyarg) : option Z :=
  match a with
  | ANum x => load64 convert x
  | ASeq KArray [NFloat r] => if convert then load64 true (NReal r) else None
  | ASeq KArray [x] => if convert then load64 true x else None
  | _ => None
  end.
(** [std::vector<Index_t>], [std::array<Index_t, dim>]: any sequence of numbers; a
    [DynCcoord] has a length and items and is one. *)
Definition load_vector (convert : bool) (a : pyarg) : option (list Z) :=
  match a with ASeq _ l => load_all convert l | ACoord l => Some l | _ => None end.
Definition load_static (dim : nat) (convert : bool) (a : pyarg) : option (list Z) :=
  match load_vector convert a with Some l => if (length l =? dim)%nat then Some l else None | None => None end.
(** bind_py_common_mugrid.cc:83-103 [DynCcoord]: the constructor from a vector, implicit
    for [list] and [tuple]; an exception in it means that the argument does not fit. *)
Definition load_coord (convert : bool) (a : pyarg) : option (list Z) :=
  match a with
  | ACoord l => Some l
  | ASeq KArray _ => None
  | ASeq _ l =>
      if convert then
        match load_all true l with
        | Some s => match c_of_list 3 s with Ok c => match c_to_vector c with Ok v => Some v | _ => None end | _ => None end
        | None => None
        end
      else None
  | _ => None
  end.
(** Overloads: first without conversions, then with. *)
Fixpoint first_fit {A} (convert : bool) (fs : list (bool -> option A)) : option A :=
  match fs with [] => None | f :: r => match f convert with Some v => Some v | None => first_fit convert r end end.
Definition overloads {A} (fs : list (bool -> option A)) : option A :=
  match first_fit false fs with Some v => Some v | None => first_fit true fs end.

(** bind_py_field_collection.cc:67-166, 223-322 [register_..._field], [..._field]: number
    of components or their shape; the latter by default.  None: [TypeError] *)
Definition components (a : option pyarg) : option (Z + list Z) :=
  match a with
  | None => Some (inr [])
  | Some a => overloads [fun c => option_map inl (load_index c a); fun c => option_map inr (load_vector c a)]
  end.
Definition py_shape (a : option pyarg) : option (list Z) := option_map comp_shape (components a).
(** bind_py_field_collection.cc:463-496 coordinates of collections *)
Definition py_coord (a : pyarg) : option (list Z) := overloads [fun c => load_coord c a].

Definition pair_of {A B} (x : option A) (y : option B) : option (A * B) := match x, y with Some a, Some b => Some (a, b) | _, _ => None end.
(** bind_py_common_mugrid.cc:139-156 [get_domain_index], 113-137 [get_domain_ccoord] *)
Definition domain_index (sizes ccoord : pyarg) : option (res Z) :=
  option_map (fun p => get_index (fst p) (repeat 0 (length (fst p))) (snd p))
    (overloads (map (fun d c => pair_of (load_static d c sizes) (load_static d c ccoord)) [1; 2; 3]%nat)).
Definition domain_ccoord (sizes i : pyarg) : option (res (list Z)) :=
  option_map (fun p => get_ccoord (fst p) (repeat 0 (length (fst p))) (snd p))
    (overloads (map (fun d c => pair_of (load_static d c sizes) (load_index c i)) [1; 2; 3]%nat)).
(** 105-111, 126-132 [get_1d_cube], [get_2d_cube], [get_3d_cube]: of integers or floats *)
Definition cube (dim : nat) (x : pynum) : option (list pynum) :=
  option_map (fun p => repeat (result (snd p)) dim) (choose [CIndex; CReal] x).
(** 186-196 [Unit.length] and others: the default for the tag in units.hh:169-190 is not
    passed on *)
Definition unit_tag (a : option pynum) : option Z :=
  match a with
  | None => None
  | Some x => match load_scalar true CInt x with Some (VZ n) => Some n | _ => None end
  end.
