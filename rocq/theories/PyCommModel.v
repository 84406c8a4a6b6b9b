(** Collective operations as Python programs call them
    (language_bindings/python/bind_py_communicator.cc, muGrid/Parallel.py), on top of
    CommModel.v.

    Every process calls the same method with its own argument.  pybind11 2.11.1 chooses
    the C++ function from the argument of the process, first without conversions, then
    with; what it accepts is trusted to be as stated here.  A float is given by its 64
    bits, a complex number by two of them. *)
From Verif Require Import Base CIntModel AttModel PyAttModel CommModel.
Local Open Scope Z_scope.
Local Open Scope list_scope.

(** [NInt]: an [int], or an integer of numpy.  [NFloat]: a [float] or [numpy.float64].
    [NReal]: another real number ([numpy.float32], [Fraction]), by its value as float. *)
Inductive pynum := NInt (n : Z) | NBool (b : bool) | NFloat (bits : Z) | NReal (bits : Z) | NComplex (re im : Z).
(** grid_common.hh:81-88 *)
Inductive ctype := CInt | CUint | CIndex | CReal | CComplex.
Inductive cval := VZ (n : Z) | VR (bits : Z) | VC (re im : Z).
Definition ctype_eqb (a b : ctype) : bool :=
  match a, b with CInt, CInt | CUint, CUint | CIndex, CIndex | CReal, CReal | CComplex, CComplex => true | _, _ => false end.

(** The integral part of a float; none for infinity and NaN.  [PyNumber_Long] *)
Definition truncated (bits : Z) : option Z :=
  let e := (bits / 2 ^ 52) mod 2 ^ 11 in
  let m := bits mod 2 ^ 52 in
  let a := if e =? 0 then 0 else let q := m + 2 ^ 52 in if e <? 1075 then q / 2 ^ (1075 - e) else q * 2 ^ (e - 1075) in
  if e =? 2047 then None else Some (if bits <? 2 ^ 63 then a else - a).
Definition within_type (lo hi n : Z) : option cval := if (lo <=? n) && (n <=? hi) then Some (VZ n) else None.
(** pybind11 [type_caster] of integers: a [float] is never taken, other numbers are
    converted with [int()] if conversion is allowed. *)
Definition load_integer (convert : bool) (lo hi : Z) (x : pynum) : option cval :=
  match x with
  | NInt n => within_type lo hi n
  | NBool b => within_type lo hi (Z.b2z b)
  | NReal r => if convert then match truncated r with Some n => within_type lo hi n | None => None end else None
  | NFloat _ | NComplex _ _ => None
  end.
(** Of floats and complex numbers. *)
Definition as_double (x : pynum) : option Z :=
  match x with
  | NInt n => double_of n | NBool b => double_of (Z.b2z b)
  | NFloat r | NReal r => Some r
  | NComplex _ _ => None
  end.
Definition load_scalar (convert : bool) (t : ctype) (x : pynum) : option cval :=
  match t with
  | CInt => load_integer convert (- 2 ^ 31) (2 ^ 31 - 1) x
  | CUint => load_integer convert 0 (2 ^ 32 - 1) x
  | CIndex => load_integer convert (- 2 ^ 63) (2 ^ 63 - 1) x
  | CReal => match x with NFloat r => Some (VR r) | _ => if convert then option_map VR (as_double x) else None end
  | CComplex => match x with NComplex r i => Some (VC r i) | _ => if convert then option_map (fun r => VC r 0) (as_double x) else None end
  end.
Fixpoint first_of (convert : bool) (ts : list ctype) (x : pynum) : option (ctype * cval) :=
  match ts with
  | [] => None
  | t :: r => match load_scalar convert t x with Some v => Some (t, v) | None => first_of convert r x end
  end.
Definition choose (ts : list ctype) (x : pynum) : option (ctype * cval) :=
  match first_of false ts x with Some r => Some r | None => first_of true ts x end.
(** bind_py_communicator.cc:70-73 [sum] of scalars; 96-100 [cumulative_sum];
    126-155 [bcast]: the overloads in the order of their definition. *)
Definition sum_types : list ctype := [CInt; CReal].
Definition cumulative_types : list ctype := [CInt; CReal; CUint; CIndex; CComplex].
Definition bcast_types : list ctype := [CReal; CInt; CUint; CIndex; CComplex].
(** What Python gets back. *)
Definition result (v : cval) : pynum := match v with VZ n => NInt n | VR r => NFloat r | VC r i => NComplex r i end.

(** ** Builds without MPI, and null communicators *)

(** communicator.hh:379-430; [TypeError] if there is no overload. *)
Definition alone (ts : list ctype) (x : pynum) : pyout pynum :=
  match choose ts x with Some (_, v) => PyOk (result (serial v)) | None => PyType end.

(** ** With MPI *)

(** All processes return, all raise a [TypeError]; or some raise and the others wait,
    or the types in the call of MPI differ, which is erroneous.  [Overflow]: a signed sum
    may overflow, or there is no such root. *)
Inductive joint := Returned (l : list pynum) | Refused | Waiting | Mismatched | Overflow.
Fixpoint chosen (l : list (option (ctype * cval))) : option (list (ctype * cval)) :=
  match l with
  | [] => Some []
  | Some x :: r => option_map (cons x) (chosen r)
  | None :: _ => None
  end.
Section Joint.
(** What MPI computes for the floats, and for the complex numbers, of all processes:
    rounding is not modelled. *)
Variables (fsum : list Z -> Z) (csum : list (Z * Z) -> Z * Z).

Definition ints (l : list cval) : list Z := flat_map (fun v => match v with VZ n => [n] | _ => [] end) l.
Definition floats (l : list cval) : list Z := flat_map (fun v => match v with VR r => [r] | _ => [] end) l.
Definition complexes (l : list cval) : list (Z * Z) := flat_map (fun v => match v with VC r i => [(r, i)] | _ => [] end) l.
(** [MPI_SUM]: numbers are added in any order; none if a signed sum may overflow. *)
Definition add_up (t : ctype) (l : list cval) : option cval :=
  let n := ints l in
  let safe bits := (zsum (filter (fun x => 0 <=? x) n) <? 2 ^ (bits - 1)) && (- 2 ^ (bits - 1) <=? zsum (filter (fun x => x <? 0) n)) in
  match t with
  | CInt => if safe 32 then Some (VZ (sum n 0)) else None
  | CIndex => if safe 64 then Some (VZ (sum n 0)) else None
  | CUint => Some (VZ (sum n 0 mod 2 ^ 32))
  | CReal => Some (VR (fsum (floats l)))
  | CComplex => Some (VC (fst (csum (complexes l))) (snd (csum (complexes l))))
  end.
Fixpoint all_results (l : list (option cval)) : joint :=
  match l with
  | [] => Returned []
  | Some v :: r => match all_results r with Returned l => Returned (result v :: l) | j => j end
  | None :: _ => Overflow
  end.
(** [rule t vs i]: what process [i] gets. *)
Definition together_ (ts : list ctype) (rule : ctype -> list cval -> nat -> option cval) (args : list pynum) : joint :=
  let cs := map (choose ts) args in
  if forallb (fun c => match c with None => true | _ => false end) cs then Refused
  else match chosen cs with
       | None => Waiting
       | Some [] => Refused
       | Some ((t, v) :: r) =>
           if forallb (fun c => ctype_eqb t (fst c)) r
           then all_results (map (rule t (v :: map snd r)) (seq 0 (length args)))
           else Mismatched
       end.
(** communicator.hh:162-170, 234-244, 334-345 *)
Definition py_sum (args : list pynum) : joint := together_ sum_types (fun t vs i => add_up t vs) args.
Definition py_cumulative_sum (args : list pynum) : joint := together_ cumulative_types (fun t vs i => add_up t (firstn (S i) vs)) args.
Definition py_bcast (root : nat) (args : list pynum) : joint := together_ bcast_types (fun t vs i => bcast vs root i) args.
End Joint.

(** ** Arrays *)

(** An array of numpy with elements of one of the five types, or of another one; [d]
    are its extents.  [Plain]: C order; [Fortran]; [Apart]: elements that are not
    adjacent. *)
Inductive norder := Plain | Fortran | Apart.
Record pyarray := mk_pyarray { r_type : option ctype; r_dims : list nat; r_order : norder; r_writeable : bool }.
(** numpy: extents of one do not count, empty arrays are in both orders. *)
Definition f_contiguous (a : pyarray) : bool :=
  match r_order a with
  | Fortran => true
  | Plain => existsb (Nat.eqb 0) (r_dims a) || (length (filter (fun n => negb (Nat.eqb n 1)) (r_dims a)) <=? 1)%nat
  | Apart => false
  end.
(** pybind11 [type_caster] of [Eigen::Ref] to a matrix that is not const: the array is
    used as it is or not at all; vectors are columns. *)
Definition load_array (t : ctype) (a : pyarray) : option (nat * nat) :=
  match r_type a with
  | Some u => if ctype_eqb t u && f_contiguous a && r_writeable a
              then match r_dims a with [n] => Some (n, 1%nat) | [n; m] => Some (n, m) | _ => None end
              else None
  | None => None
  end.
(** bind_py_communicator.cc:74-95 and 101-125: an overload for each type.  An array of
    one element that none of them takes is converted to a scalar by the overloads for
    scalars ([sum] only), which is not modelled. *)
Definition array_types : list ctype := [CReal; CInt; CUint; CIndex; CComplex].
Definition choose_array (a : pyarray) : option (ctype * (nat * nat)) :=
  fold_right (fun t r => match load_array t a with Some s => Some (t, s) | None => r end) None array_types.

(** ** muGrid/Parallel.py:44-83 [Communicator] *)

(** The argument: nothing, a communicator of muGrid with so many processes, an object
    with a method [Get_size], or another object.  [mpi]: muGrid was built with MPI;
    [mpi4py]: that module can be imported. *)
Inductive comm_arg := ANone | AOwn (size : Z) | ASized (size : Z) | AOther.
(** 52-54, 379-430, communicator.hh:133-150: by default the process alone. *)
Definition communicator (mpi mpi4py : bool) (a : comm_arg) : res Z :=
  match a with
  | ANone => Ok 1
  | AOwn n => Ok n
  | ASized n => if n =? 1 then Ok 1
                else if mpi then if mpi4py then Ok n else Err RuntimeError
                else Err RuntimeError
  | AOther => Err RuntimeError
  end.
