(** Exceptions with a traceback (exception.hh, exception.cc).  The functions of
    the C library ([backtrace], [dladdr], [__cxa_demangle]) are parameters: an
    arbitrary stack, and what the loader knows about an address. *)
From Coq Require Import String Ascii.
From Verif Require Import Base.
Local Open Scope string_scope.
Local Open Scope nat_scope.
Local Open Scope list_scope.

(** [std::endl] puts this character. *)
Definition nl : string := String "010"%char "".

(** A pointer to the characters of a string, as its reader sees it: the
    characters before the first NUL. *)
Fixpoint c_str (s : string) : string :=
  match s with
  | EmptyString => EmptyString
  | String c r => if Ascii.eqb c "000"%char then EmptyString else String c (c_str r)
  end.

(** [Dl_info]: name of the file, name of the symbol; a null pointer is [None]. *)
Record dl_info := mk_dl { dli_fname : option string; dli_sname : option string }.
(** The C library: [dladdr] (0 is [None]), [__cxa_demangle] (a status other than
    0 is [None]) and how a stream prints an address. *)
Record clib := mk_clib { dladdr : Z -> option dl_info; demangle : string -> option string; show_addr : Z -> string }.

(** exception.hh:55-169 [TracebackEntry], members 163-167. *)
Record entry := mk_entry { e_address : Z; e_symbol : string; e_name : string; e_file : string; e_resolved : bool }.

(** exception.cc:72-92 [discover_name_and_file]. *)
Definition discover (l : clib) (e : entry) : entry :=
  match dladdr l (e_address e) with
  | None => e
  | Some info =>
      let e1 := match dli_sname info with
                | Some s => let name := c_str s in
                            mk_entry (e_address e) (e_symbol e)
                              (match demangle l name with Some d => c_str d | None => name end) (e_file e) true
                | None => e
                end in
      match dli_fname info with
      | Some f => mk_entry (e_address e1) (e_symbol e1) (e_name e1) (c_str f) (e_resolved e1)
      | None => e1
      end
  end.
(** exception.cc:48-56: the constructors. *)
Definition new_entry (l : clib) (address : Z) (symbol : string) : entry :=
  discover l (mk_entry address symbol "" "" false).
(** exception.cc:58-60: copying. *)
Definition copy_entry (e : entry) : entry := mk_entry (e_address e) (e_symbol e) (e_name e) (e_file e) (e_resolved e).

(** exception.cc:46 *)
Definition MAX_DEPTH : nat := 256.
(** exception.cc:98-108: [Traceback(discard_entries)].  [stack] are the return
    addresses with their symbols, most recent first; [backtrace] stores no more
    than it is asked for.  The entries are temporaries, copied into the vector. *)
Definition new_traceback (l : clib) (stack : list (Z * string)) (discard : nat) : list entry :=
  map (fun f => copy_entry (new_entry l (fst f) (snd f))) (skipn discard (firstn MAX_DEPTH stack)).

(** exception.hh:130-140: printing an entry. *)
Definition show_entry (l : clib) (e : entry) : string :=
  if e_resolved e then ("  File """ ++ e_file e ++ """" ++ nl ++ "    " ++ e_name e)%string
  else ("  Stack frame [" ++ show_addr l (e_address e) ++ "] could not be resolved to a function/method name.")%string.

(** exception.hh:212-222: the number of entries before the first that is not
    resolved. *)
Fixpoint nb_resolved (es : list entry) : nat :=
  match es with [] => 0 | e :: r => if e_resolved e then S (nb_resolved r) else 0 end.
(** exception.hh:224-228: entries [j - 1], ..., 0. *)
Fixpoint show_down (l : clib) (es : list entry) (j : nat) : string :=
  match j with
  | O => ""
  | S j' => (match nth_error es j' with
             | Some e => show_entry l e ++ (if (j' =? 0)%nat then "" else nl)
             | None => ""
             end ++ show_down l es j')%string
  end.
(** exception.hh:209-230: printing a traceback. *)
Definition show_traceback (l : clib) (es : list entry) : string := show_down l es (nb_resolved es).

(** exception.hh:276-283: the text that the constructor of
    [ExceptionWithTraceback] prepares; [std::runtime_error] keeps the message and
    gives a pointer to its characters. *)
Definition buffer (l : clib) (stack : list (Z * string)) (message : string) : string :=
  (c_str message ++ nl ++ "Traceback from C++ library (most recent call last):" ++ nl
     ++ show_traceback l (new_traceback l stack 3))%string.
(** exception.hh:300 [what] *)
Definition what (l : clib) (stack : list (Z * string)) (message : string) : string := c_str (buffer l stack message).

(** The classes of exceptions: [RuntimeError] itself (exception.hh:316), the
    classes with a constructor that calls its constructor (field.hh:51-57,
    field_collection.hh:79-86, field_map.hh:51-58, file_io_base.hh:72-79,
    numpy_tools.hh:59-65, units.hh:55-80) and those that inherit it through
    [DictionaryError] (options_dictionary.hh:49-61). *)
Inductive error_class :=
  | CRuntimeError | CFieldError | CFieldCollectionError | CFieldMapError | CFileIOError | CNumpyError | CUnitError
  | CDictionaryError | CValueError | CKeyError.
(** Constructors between the one of [ExceptionWithTraceback] and the [throw]. *)
Definition nb_constructors (c : error_class) : nat :=
  match c with
  | CRuntimeError => 0
  | CFieldError | CFieldCollectionError | CFieldMapError | CFileIOError | CNumpyError | CUnitError | CDictionaryError => 1
  | CValueError | CKeyError => 2
  end.
(** The stack when [backtrace] is called for an exception of class [c], each call
    with a frame of its own (a compiler that inlines calls removes frames):
    the constructors of [Traceback] and [ExceptionWithTraceback], those of the
    class, the function that throws and its callers. *)
Definition stack_of (traceback_ctor exception_ctor : Z * string) (class_ctors : list (Z * string)) (thrower : Z * string)
    (callers : list (Z * string)) : list (Z * string) :=
  traceback_ctor :: exception_ctor :: class_ctors ++ thrower :: callers.
