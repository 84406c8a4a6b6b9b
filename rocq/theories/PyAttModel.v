(** Global attributes of NetCDF files as Python programs use them
    (language_bindings/python/bind_py_file_io.cc), on top of AttModel.v, and the
    conversion of attribute values to text (file_io_netcdf.cc).

    A Python value is a string, given by its UTF-8 bytes, or a list of numbers
    and other objects; a float is given by its 64 bits.  Strings with lone
    surrogates, [bytes], tuples and NumPy arrays are left out.  The choice among
    overloads and the conversions of arguments follow pybind11 2.11.1
    (subprojects/pybind11.wrap).  Memory is little-endian. *)
From Coq Require Import String.
From Verif Require Import Base AttModel.
Local Open Scope Z_scope.
Local Open Scope list_scope.

Inductive pyelem := PInt (n : Z) | PBool (b : bool) | PFloat (bits : Z) | POther.
Inductive pyval := PStr (u : bytes) | PList (l : list pyelem).
(** What a call does: returns, raises the exception of the C++ code, a
    [TypeError] or a [UnicodeDecodeError]; or undefined behaviour. *)
Inductive pyout (A : Type) := PyOk (a : A) | PyExn (e : exn) | PyType | PyUnicode | PyUB.
Arguments PyOk {A} a.
Arguments PyExn {A} e.
Arguments PyType {A}.
Arguments PyUnicode {A}.
Arguments PyUB {A}.

(** ** Arguments *)

(** Little-endian bytes of [n], for negative [n] in two's complement. *)
Fixpoint le (k : nat) (n : Z) : bytes :=
  match k with O => [] | S j => n mod 256 :: le j (n / 256) end.
(** An integer as a float, rounded to nearest, ties to even; none beyond the
    range of floats.  [PyLong_AsDouble] *)
Definition double_of (n : Z) : option Z :=
  if n =? 0 then Some 0
  else let a := Z.abs n in
       let k := Z.log2 a in
       let q := if k <=? 52 then a * 2 ^ (52 - k)
                else let d := k - 52 in
                     let q := a / 2 ^ d in let r := a mod 2 ^ d in let half := 2 ^ (d - 1) in
                     if (half <? r) || ((r =? half) && Z.odd q) then q + 1 else q in
       let x := (k + 1022) * 2 ^ 52 + q in
       if 2047 * 2 ^ 52 <=? x then None else Some ((if n <? 0 then 2 ^ 63 else 0) + x).
(** pybind11 [type_caster] of integers in [lo .. hi]: never from a float *)
Definition load_int (lo hi : Z) (e : pyelem) : option Z :=
  let in_range n := if (lo <=? n) && (n <=? hi) then Some n else None in
  match e with PInt n => in_range n | PBool b => in_range (Z.b2z b) | _ => None end.
(** pybind11 [type_caster<double>]: from other numbers only if conversion is
    allowed *)
Definition load_real (convert : bool) (e : pyelem) : option Z :=
  match e with
  | PFloat x => Some x
  | PInt n => if convert then double_of n else None
  | PBool b => if convert then double_of (Z.b2z b) else None
  | POther => None
  end.
(** pybind11 [list_caster] *)
Fixpoint load_all (f : pyelem -> option Z) (l : list pyelem) : option (list Z) :=
  match l with
  | [] => Some []
  | e :: r => match f e, load_all f r with Some x, Some xs => Some (x :: xs) | _, _ => None end
  end.
Definition pack (k : nat) (l : option (list Z)) : option bytes := option_map (flat_map (le k)) l.
(** An argument for the overload of this type; the bytes of the C++ value *)
Definition load (convert : bool) (t : nctype) (v : pyval) : option bytes :=
  match t, v with
  | TChar, PStr u => Some u
  | TInt, PList l => pack 4 (load_all (load_int (- 2 ^ 31) (2 ^ 31 - 1)) l)
  | TUInt, PList l => pack 4 (load_all (load_int 0 (2 ^ 32 - 1)) l)
  | TInt64, PList l => pack 8 (load_all (load_int (- 2 ^ 63) (2 ^ 63 - 1)) l)
  | TDouble, PList l => pack 8 (load_all (load_real convert) l)
  | _, _ => None
  end.
(** bind_py_file_io.cc 205-220 and 313-328: the overloads in the order of their
    definition.  pybind11 tries all of them without conversions, then all with. *)
Definition overloads : list nctype := [TChar; TInt; TUInt; TInt64; TDouble].
Fixpoint try_overloads (convert : bool) (ts : list nctype) (v : pyval) : option (nctype * bytes) :=
  match ts with
  | [] => None
  | t :: r => match load convert t v with Some b => Some (t, b) | None => try_overloads convert r v end
  end.
Definition resolve (v : pyval) : option (nctype * bytes) :=
  match try_overloads false overloads v with Some x => Some x | None => try_overloads true overloads v end.

(** ** Results *)

(** Is this the UTF-8 encoding of a string? *)
Definition within (lo hi b : Z) : bool := (lo <=? b) && (b <=? hi).
Fixpoint utf8 (l : bytes) : bool :=
  match l with
  | [] => true
  | a :: r =>
      if within 0 127 a then utf8 r
      else if within 194 223 a then
        match r with b :: r1 => within 128 191 b && utf8 r1 | _ => false end
      else if within 224 239 a then
        match r with
        | b :: c :: r2 => within (if a =? 224 then 160 else 128) (if a =? 237 then 159 else 191) b && within 128 191 c && utf8 r2
        | _ => false
        end
      else if within 240 244 a then
        match r with
        | b :: c :: d :: r3 => within (if a =? 240 then 144 else 128) (if a =? 244 then 143 else 191) b && within 128 191 c && within 128 191 d && utf8 r3
        | _ => false
        end
      else false
  end.
(** The elements of a vector, each of [k] bytes *)
Fixpoint of_le (l : bytes) : Z := match l with [] => 0 | b :: r => b + 256 * of_le r end.
Fixpoint chunks (fuel k : nat) (l : bytes) : list bytes :=
  match fuel, l with
  | S f, _ :: _ => firstn k l :: chunks f k (skipn k l)
  | _, _ => []
  end.
Definition unpack (k : nat) (l : bytes) : list Z := map of_le (chunks (List.length l) k l).
Definition signed (bits n : Z) : Z := if 2 ^ (bits - 1) <=? n then n - 2 ^ bits else n.
(** file_io_netcdf.cc 1565-1627 [get_typed_value_c] and its siblings: the vector
    for the type [t] of an attribute, or an exception if the type is another *)
Definition get_typed_value (t : nctype) (m : matt) : res bytes :=
  if nctype_eqb (m_type m) t then Ok (m_val m) else Err FileIOError.
(** bind_py_file_io.cc 223-262: the conversion of an attribute *)
Definition cast (m : matt) : pyout pyval :=
  let typed t (f : bytes -> pyout pyval) := match get_typed_value t m with Ok b => f b | Err e => PyExn e | UB => PyUB end in
  match m_type m with
  | TChar => typed TChar (fun b => if utf8 b then PyOk (PStr b) else PyUnicode)
  | TInt => typed TInt (fun b => PyOk (PList (map (fun x => PInt (signed 32 x)) (unpack 4 b))))
  | TUInt => typed TUInt (fun b => PyOk (PList (map PInt (unpack 4 b))))
  | TInt64 => typed TInt64 (fun b => PyOk (PList (map (fun x => PInt (signed 64 x)) (unpack 8 b))))
  | TDouble => typed TDouble (fun b => PyOk (PList (map PFloat (unpack 8 b))))
  | _ => PyExn FileIOError
  end.

(** ** Calls *)

Inductive pyop :=
| PyWrite (n : string) (v : pyval)          (* write_global_attribute *)
| PyUpdate (old new : string) (v : pyval)   (* update_global_attribute *)
| PyRegister (vs : list (string * bytes))   (* register_field_collection *)
| PySave (frame value : Z) (names : list string)  (* write *)
| PyLoad (names : list string).             (* read *)
(** The C++ function that is called, if the arguments have an overload *)
Definition lower (o : pyop) : option op :=
  match o with
  | PyWrite n v => match resolve v with Some (t, b) => Some (WriteAtt n t b) | None => None end
  | PyUpdate a b v => match resolve v with Some (t, x) => Some (UpdateAtt a b t x) | None => None end
  | PyRegister vs => Some (Register vs)
  | PySave f x ns => Some (Write f x ns)
  | PyLoad ns => Some (Read ns)
  end.
Definition pystep (o : pyop) (s : st) : st * pyout unit :=
  match lower o with
  | None => (s, PyType)
  | Some c => match step c s with
              | (s', Ok _) => (s', PyOk tt)
              | (s', Err e) => (s', PyExn e)
              | (s', UB) => (s', PyUB)
              end
  end.
(** bind_py_file_io.cc 223-262 [read_global_attribute]; file_io_netcdf.cc
    1874-1885: a name that is not there is refused *)
Definition py_read_global_attribute (n : string) (s : st) : pyout pyval :=
  match read_global_attribute n s with None => PyExn FileIOError | Some m => cast m end.
(** bind_py_file_io.cc 263-312 [read_global_attributes]: a dictionary with all
    attributes, in the order of the file; the first that cannot be converted ends
    the call *)
Fixpoint collect (ns : list string) (s : st) : pyout (list (string * pyval)) :=
  match ns with
  | [] => PyOk []
  | n :: r => match py_read_global_attribute n s with
              | PyOk v => match collect r s with
                          | PyOk d => PyOk ((n, v) :: d)
                          | e => e
                          end
              | PyExn e => PyExn e
              | PyType => PyType
              | PyUnicode => PyUnicode
              | PyUB => PyUB
              end
  end.
Definition py_read_global_attributes (s : st) : pyout (list (string * pyval)) := collect (read_global_attribute_names s) s.

(** ** Text *)

(** Standard output: what was printed, and what the stream buffer of [std::cout]
    gives when it is read from (nothing, unless the standard library allows it). *)
Record console := mk_console { k_printed : list Z; k_input : list Z }.
(** grid_common.hh 646-659: a vector in a stream; [show] prints an element *)
Fixpoint joined (show : bytes -> list Z) (l : list bytes) : list Z :=
  match l with [] => [] | [x] => show x | x :: r => show x ++ [44; 32] ++ joined show r end.
Definition print_vector (show : bytes -> list Z) (l : list bytes) : list Z := [40] ++ joined show l ++ [41].
(** file_io_netcdf.cc 1630-1659 [get_value_as_string]: the vector goes to
    [std::cout]; the string is what can then be read from the buffer of
    [std::cout]. *)
Definition get_value_as_string (show : nctype -> bytes -> list Z) (m : matt) (c : console) : console * res (list Z) :=
  if supported (m_type m) then
    (mk_console (k_printed c ++ print_vector (show (m_type m)) (chunks (List.length (m_val m)) (tsize (m_type m)) (m_val m))) [], Ok (k_input c))
  else (c, Err FileIOError).
