(** Lifetimes of Python objects (bind_py_field.cc, bind_py_field_collection.cc,
    bind_py_state_field.cc, bind_py_file_io.cc, bind_py_common_mugrid.cc).

    The Python objects of the module wrap C++ objects.  Collections and files are
    owned by their wrappers; fields, state fields and pixels belong to a collection,
    and arrays, maps, iterators and frames only refer to something of a collection or
    of a file.  Trusted rules of CPython, numpy and pybind11 (2.11.1,
    subprojects/pybind11.wrap):
    - an object exists as long as the program can reach it through its variables and
      the references that objects hold (reference counts; no cycles arise here);
    - [return_value_policy::reference_internal] and a result that is an lvalue
      reference: if there is a wrapper of the C++ object, this is the result; if not,
      there is a new wrapper that holds the object the method was called for;
    - a result by value is moved into a new object that holds nothing, whatever the
      policy is;
    - [keep_alive<0, 1>] of a method: the result holds the object the method was
      called for; [keep_alive] given to [def_property] has no effect, since the
      getter is made before the extra arguments are looked at;
    - a buffer holds the object that exports it; a slice of an array holds the array;
    - [make_iterator] without [keep_alive]: the iterator holds nothing. *)
From Coq Require Import String.
From Verif Require Import Base.
Local Open Scope nat_scope.
Local Open Scope list_scope.

(** What belongs to a collection: its fields (also those of state fields), its state
    fields, and the pixels of a global collection. *)
Inductive part := PField (name : string) | PState (prefix : string) | PPixels.
Definition part_eqb (a b : part) : bool :=
  match a, b with
  | PField x, PField y => String.eqb x y
  | PState x, PState y => String.eqb x y
  | PPixels, PPixels => true
  | _, _ => false
  end.

(** Kinds of Python objects.  Objects are numbered in the order in which they were
    made; [c] is the number of the collection's wrapper, [f] that of the file's. *)
Inductive kind :=
| KColl
| KPart (c : nat) (p : part)
| KArray (c : nat)        (* an array or memoryview on the memory of a field *)
| KMap (c : nat)          (* a field map *)
| KPixelIter (c : nat)    (* an iterator over pixels, or the result of [enumerate] *)
| KFile
| KFrame (f : nat)
| KFrameIter (f : nat)
| KOther.                 (* an object without reference to the library *)
Record pobj := mk_pobj { po_kind : kind; po_holds : list nat }.

(** All objects made so far; the variables of the program (an object may be the value
    of several); and which files refer to which collections (file_io_netcdf.cc:64-120,
    the file keeps references to the collection's fields). *)
Record state := mk_state { s_objs : list pobj; s_vars : list nat; s_regs : list (nat * nat) }.
Definition start : state := mk_state [] [] [].

(** Objects hold objects that were made before them, so they can be gone through
    from the last to the first. *)
Definition memb (h : nat) (l : list nat) : bool := existsb (Nat.eqb h) l.
Fixpoint reach (objs : list pobj) (n : nat) (held : list nat) : list nat :=
  match n with
  | O => held
  | S m => reach objs m (match nth_error objs m with
                         | Some o => if memb m held then po_holds o ++ held else held
                         | None => held
                         end)
  end.
Definition alive (s : state) (h : nat) : bool := memb h (reach (s_objs s) (length (s_objs s)) (s_vars s)).

(** The wrappers of the C++ objects that must exist when an object is used; reading
    and writing need also the collections that are registered (file_io_netcdf.cc:
    2093-2112, 2705-2707). *)
Definition registered_in (s : state) (f : nat) : list nat :=
  map snd (filter (fun p => Nat.eqb (fst p) f) (s_regs s)).
Definition needs (h : nat) (k : kind) : list nat :=
  match k with
  | KColl => [h]
  | KPart c _ | KArray c | KMap c | KPixelIter c => [c]
  | KFile => [h]
  | KFrame f | KFrameIter f => [f]
  | KOther => []
  end.

(** The calls of a program.
    - [NewColl], [NewFile]: constructors;
    - [GetPart h p]: [reference_internal] (bind_py_field_collection.cc:67-378,
      392-431, bind_py_field.cc:151-152, bind_py_state_field.cc:62-92,
      bind_py_field_collection.cc:497): registering, getting and cloning fields, [current] and
      [old] of state fields, the pixels;
    - [Owner h]: the property [collection] of a field (bind_py_field.cc:79);
    - [Array h]: the method [array] (bind_py_field.cc:123-128), also the buffer
      protocol (114-122);
    - [Prop h]: the properties [s] and [p] (129-134);
    - [MapOf h]: [get_pixel_map], [get_sub_pt_map] (135-148, results by value);
    - [Slice h]: a slice, transpose or reshaped view of an array; [Copy h]: a copy;
    - [Iterate h]: [iter] of pixels and [enumerate]
      (bind_py_common_mugrid.cc:165-178), and of files (bind_py_file_io.cc:136-139);
    - [GetFrame h]: [file\[i\]], [append_frame] (134, 140-141; file_io_base.hh:165,
      231, results by value), the constructor of frames (147), and the next frame of
      an iterator;
    - [Register h c]: [register_field_collection] (173-178), which goes through all
      variables of the file (file_io_netcdf.cc:124-170);
    - [Transfer h]: [read] and [write] of files and frames (148-162, 179-205);
    - [Use h]: any other use of the object;
    - [Del h]: one variable less. *)
Inductive call :=
| NewColl | NewFile
| GetPart (h : nat) (p : part)
| Owner (h : nat)
| Array (h : nat)
| Prop_ (h : nat)
| MapOf (h : nat)
| Slice (h : nat)
| Copy (h : nat)
| Iterate (h : nat)
| GetFrame (h : nat)
| Register (h c : nat)
| Transfer (h : nat)
| Use (h : nat)
| Del (h : nat).

(** The outcome of a call: an object, nothing, a Python exception (no such variable
    or method), or undefined behaviour. *)
Inductive outcome := Obj (h : nat) | Done | Raises | Crash.

Fixpoint drop (h : nat) (l : list nat) : list nat :=
  match l with [] => [] | x :: r => if Nat.eqb x h then r else x :: drop h r end.
Definition assign (h : nat) (s : state) : state * outcome := (mk_state (s_objs s) (h :: s_vars s) (s_regs s), Obj h).
Definition make (k : kind) (holds : list nat) (s : state) : state * outcome :=
  let h := length (s_objs s) in
  (mk_state (s_objs s ++ [mk_pobj k holds]) (h :: s_vars s) (s_regs s), Obj h).
(** The wrapper of a part, if there is one. *)
Definition is_part (c : nat) (p : part) (k : kind) : bool :=
  match k with KPart c' p' => Nat.eqb c c' && part_eqb p p' | _ => false end.
Definition wrapper (s : state) (c : nat) (p : part) : option nat :=
  find (fun h => match nth_error (s_objs s) h with
                 | Some o => is_part c p (po_kind o) && alive s h
                 | None => false
                 end) (seq 0 (length (s_objs s))).
Definition get_part (h c : nat) (p : part) (s : state) : state * outcome :=
  match wrapper s c p with
  | Some h' => assign h' s
  | None => make (KPart c p) [h] s
  end.

(** A method of the object [h], of which the program has a variable. *)
Definition with_object (s : state) (h : nat) (f : kind -> state * outcome) : state * outcome :=
  if memb h (s_vars s) then
    match nth_error (s_objs s) h with
    | Some o => if forallb (alive s) (needs h (po_kind o)) then f (po_kind o) else (s, Crash)
    | None => (s, Raises)
    end
  else (s, Raises).

(** What goes through the fields that are registered in a file. *)
Definition with_fields (s : state) (f : nat) (r : state * outcome) : state * outcome :=
  if forallb (alive s) (registered_in s f) then r else (s, Crash).

Definition step (s : state) (o : call) : state * outcome :=
  match o with
  | NewColl => make KColl [] s
  | NewFile => make KFile [] s
  | GetPart h p => with_object s h (fun k =>
      match k with KColl => get_part h h p s | KPart c _ => get_part h c p s | _ => (s, Raises) end)
  | Owner h => with_object s h (fun k => match k with KPart c (PField _) => assign c s | _ => (s, Raises) end)
  | Array h => with_object s h (fun k => match k with KPart c (PField _) => make (KArray c) [h] s | _ => (s, Raises) end)
  | Prop_ h => with_object s h (fun k => match k with KPart c (PField _) => make (KArray c) [] s | _ => (s, Raises) end)
  | MapOf h => with_object s h (fun k => match k with KPart c (PField _) => make (KMap c) [] s | _ => (s, Raises) end)
  | Slice h => with_object s h (fun k => match k with KArray c => make (KArray c) [h] s | _ => (s, Raises) end)
  | Copy h => with_object s h (fun k => match k with KArray _ => make KOther [] s | _ => (s, Raises) end)
  | Iterate h => with_object s h (fun k =>
      match k with
      | KPart c PPixels | KPixelIter c => make (KPixelIter c) [] s
      | KFile => make (KFrameIter h) [] s
      | _ => (s, Raises)
      end)
  | GetFrame h => with_object s h (fun k =>
      match k with KFile => make (KFrame h) [] s | KFrameIter f => make (KFrame f) [] s | _ => (s, Raises) end)
  | Register h c => with_object s h (fun k =>
      match k with
      | KFile => with_fields s h (with_object s c (fun k' => match k' with
          | KColl => (mk_state (s_objs s) (s_vars s) ((h, c) :: s_regs s), Done)
          | _ => (s, Raises)
          end))
      | _ => (s, Raises)
      end)
  | Transfer h => with_object s h (fun k =>
      match k with
      | KFile => with_fields s h (s, Done)
      | KFrame f => with_fields s f (s, Done)
      | _ => (s, Raises)
      end)
  | Use h => with_object s h (fun _ => (s, Done))
  | Del h => if memb h (s_vars s) then (mk_state (s_objs s) (drop h (s_vars s)) (s_regs s), Done) else (s, Raises)
  end.
Definition run (s : state) (l : list call) : state := fold_left (fun s o => fst (step s o)) l s.
Fixpoint outcomes (s : state) (l : list call) : list outcome :=
  match l with
  | [] => []
  | o :: r => snd (step s o) :: outcomes (fst (step s o)) r
  end.
