(** Specification vocabulary for typed fields in files. *)
From Coq Require Import String.
From Verif Require Import Base GridSpec StridedModel LayoutModel NetCDFModel NetCDFSpec FrameModel IoTypeModel.
Local Open Scope Z_scope.
Local Open Scope list_scope.

(** Memory as a list of elements of [e] bytes. *)
Definition element (e : Z) (mem : bytes) (i : nat) : bytes := firstn (Z.to_nat e) (skipn (i * Z.to_nat e) mem).
Definition elements (e : Z) (mem : bytes) : list bytes := map (element e mem) (seq 0 (length mem / Z.to_nat e)).
Definition whole (e : Z) (mem : bytes) : Prop := 0 < e /\ exists n, length mem = (n * Z.to_nat e)%nat.

(** All cells of a variable have the size of its type. *)
Definition typed (e : Z) (name : string) (file : ncfile bytes) : Prop := forall i, Z.of_nat (length (cells file name i)) = e.

(** Platforms of today: [int] with 2, 4 or 8 bytes, [Eigen::Index] with 4 or 8. *)
Definition real_platform (P : platform) : Prop := (sz_int P = 2 \/ sz_int P = 4 \/ sz_int P = 8) /\ (sz_index P = 4 \/ sz_index P = 8).
(** Integers with a sign, integers without, floating point numbers, text. *)
Inductive kind := Signed | Unsigned | Floating | Text.
Definition ckind (c : ctype) : kind :=
  match c with CChar => Text | CInt | CIndex => Signed | CUint => Unsigned | CReal | CComplex => Floating end.
Definition nckind (t : nct) : kind :=
  match t with
  | NcChar => Text | NcByte | NcShort | NcInt | NcInt64 => Signed
  | NcUbyte | NcUshort | NcUint | NcUint64 => Unsigned | NcFloat | NcDouble => Floating
  end.
Definition mpikind (m : mpit) : kind :=
  match m with
  | MpiChar => Text | MpiShort | MpiInt | MpiLongLong => Signed
  | MpiUshort | MpiUnsigned | MpiUlongLong => Unsigned | MpiFloat | MpiDouble => Floating
  end.

(** The bytes of the element with these indices. *)
Definition holds_bytes (e : Z) (f : layout) (mem : bytes) (c : list Z) (q : Z) (x : list Z) (a : bytes) : Prop :=
  exists s, get_strides f SubPt 1 = Ok s /\ bload mem (e * off s (c ++ q :: x)) e = Ok a.
(** A field on a part of a domain, and memory for its elements of type [c]. *)
Definition in_bytes (P : platform) (c : ctype) (f : nfield) (mem : bytes) : Prop :=
  whole (csize P c) mem /\ distributed f (elements (csize P c) mem).

(** Any number of successful writes of fields of any type that concern other
    variables, other frames or other entries of the history; [ty] are the types
    of the variables in the file. *)
Inductive blater (P : platform) (ty : string -> nct) (v : ncvar) (fr h : Z) : ncfile bytes -> ncfile bytes -> Prop :=
| blater_none file : blater P ty v fr h file file
| blater_write file file1 file2 c' name' hist' f' v' m' nb' k' fr' h' :
    blater P ty v fr h file file1 ->
    typeid_to_nc_type P c' = Ok (ty name') -> in_bytes P c' f' m' -> registered hist' name' f' v' -> entry hist' h' ->
    accessed k' nb' = Ok fr' ->
    name' <> v_name v \/ fr' <> fr \/ (v' = v /\ hist' <> None /\ h' <> h) ->
    bwrite_global (ext_size (ty name')) nb' k' v' h' f' m' file1 = Ok file2 ->
    blater P ty v fr h file file2.

(** A process whose memory holds elements of [e] bytes. *)
Definition as_elements (e : Z) (w : process Z) : process bytes :=
  mk_process (pr_sub w) (pr_ids w) (pr_field w) (elements e (pr_mem w)).
