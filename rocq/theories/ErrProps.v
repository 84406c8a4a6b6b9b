(** Properties C154 and C155: the texts of errors. *)
From Coq Require Import String Ascii List.
From Verif Require Import Base ErrModel ErrSpec ErrProofs.
Import ListNotations.
Local Open Scope string_scope.
Local Open Scope nat_scope.
Local Open Scope list_scope.

(** A loader for the examples: functions at addresses 1 to 9, [main] at 7 has no
    name. *)
Definition ex_lib : clib :=
  mk_clib
    (fun a => match a with
              | 1%Z => Some (mk_dl (Some "lib") (Some "_tb")) | 2%Z => Some (mk_dl (Some "lib") (Some "_ex"))
              | 3%Z => Some (mk_dl (Some "lib") (Some "_fe")) | 4%Z => Some (mk_dl (Some "lib") (Some "_f"))
              | 5%Z => Some (mk_dl (Some "lib") (Some "g")) | 6%Z => Some (mk_dl None (Some "h"))
              | 7%Z => Some (mk_dl (Some "exe") None) | 8%Z => Some (mk_dl (Some "exe") (Some "start"))
              | _ => None end)
    (fun s => if String.eqb s "_f" then Some "f(int)" else None)
    (fun _ => "0x0").
Lemma ex_lib_plain : plain_lib ex_lib.
Proof.
  split.
  - intros s d H. unfold ex_lib in H. cbn [demangle] in H. destruct (String.eqb s "_f"); [|discriminate H].
    injection H as <-. repeat (split; [discriminate|]); exact I.
  - intros a i H. unfold ex_lib in H. cbn [dladdr] in H.
    repeat match type of H with context [match ?x with _ => _ end] => destruct x end; try discriminate H; injection H as <-;
      (split; intros s E; cbn in E; [try discriminate E|try discriminate E]; injection E as <-; repeat (split; [discriminate|]); exact I).
Qed.

(** Whatever the stack and the loader, the text of an error begins with the
    message (up to its first NUL), on lines of its own. *)
Theorem C154_message : forall l stack message, exists rest, what l stack message = (c_str message ++ nl ++ rest)%string.
Proof. exact what_message. Qed.
Print Assumptions C154_message.
(** Beside it: a message with a NUL is cut. *)
Example C154_message_ex :
  what ex_lib [] (String "a" (String "000" "b")) = ("a" ++ nl ++ "Traceback from C++ library (most recent call last):" ++ nl)%string.
Proof. vm_compute. reflexivity. Qed.

(** After the message stands the header and then, outermost frame first, the
    longest run of frames with a name that begins at the fourth frame, of the 256
    innermost. *)
Theorem C154_text : forall l stack message, plain_lib l ->
  exists k, let candidates := skipn 3 (firstn 256 stack) in let shown := firstn k candidates in
    what l stack message = text l (c_str message) (rev shown) /\
    k <= List.length candidates /\
    Forall (named l) shown /\
    (forall f, nth_error candidates k = Some f -> ~ named l f).
Proof. exact what_text. Qed.
Print Assumptions C154_text.
(** These conditions determine [k]. *)
Theorem C154_unique : forall l fs k k',
  k <= List.length fs -> k' <= List.length fs ->
  Forall (named l) (firstn k fs) -> (forall f, nth_error fs k = Some f -> ~ named l f) ->
  Forall (named l) (firstn k' fs) -> (forall f, nth_error fs k' = Some f -> ~ named l f) -> k = k'.
Proof. intros l. exact (run_unique (named l)). Qed.
Print Assumptions C154_unique.
(** Beside them: three frames are left out, two printed, [start] is not reached. *)
Example C154_text_ex :
  what ex_lib [(1, ""); (2, ""); (3, ""); (4, ""); (6, ""); (7, ""); (8, "")]%Z "boom" =
  ("boom" ++ nl ++ "Traceback from C++ library (most recent call last):" ++ nl ++
   "  File """"" ++ nl ++ "    h" ++ nl ++ "  File ""lib""" ++ nl ++ "    f(int)")%string.
Proof. vm_compute. reflexivity. Qed.

(** For the classes with one constructor of their own, the last frame of the text
    is the function that throws, if it has a name. *)
Theorem C154_thrower : forall l c tb ex ctors thrower callers message, plain_lib l ->
  nb_constructors c = 1 -> List.length ctors = nb_constructors c -> named l thrower ->
  exists k, what l (stack_of tb ex ctors thrower callers) message = text l (c_str message) (rev (firstn k callers) ++ [thrower]).
Proof. intros l c tb ex ctors thrower callers message P N L. rewrite N in L. exact (what_thrower l tb ex ctors thrower callers message P L). Qed.
Print Assumptions C154_thrower.
Example C154_thrower_ex :
  nb_constructors CFieldError = 1 /\
  what ex_lib (stack_of (1, "") (2, "") [(3, "")] (4, "") [(5, "")])%Z "boom" = text ex_lib "boom" [(5, ""); (4, "")]%Z /\
  name_of ex_lib (4%Z, "") = "f(int)".
Proof. split; [reflexivity|]. split; [vm_compute; reflexivity|]. vm_compute. reflexivity. Qed.

(** Not for all classes: a plain [RuntimeError] leaves out the function that
    throws it. *)
Theorem C155_thrower_refuted : ~ (forall l c tb ex ctors thrower callers message, plain_lib l ->
  List.length ctors = nb_constructors c -> named l thrower ->
  exists outer, what l (stack_of tb ex ctors thrower callers) message = text l (c_str message) (outer ++ [thrower])).
Proof.
  intro H.
  assert (N : named ex_lib (4%Z, "")) by (eexists; eexists; split; reflexivity).
  destruct (H ex_lib CRuntimeError (1%Z, "") (2%Z, "") [] (4%Z, "") [] "boom" ex_lib_plain eq_refl N) as (outer & E).
  pose proof (text_longer ex_lib (c_str "boom") outer (4%Z, "")) as L. rewrite <- E in L.
  vm_compute in L. exact (PeanoNat.Nat.lt_irrefl _ L).
Qed.
Print Assumptions C155_thrower_refuted.
(** In general: only callers of that function are named. *)
Theorem C155_runtime_error : forall l tb ex ctors thrower callers message, plain_lib l ->
  List.length ctors = nb_constructors CRuntimeError ->
  exists k, what l (stack_of tb ex ctors thrower callers) message = text l (c_str message) (rev (firstn k callers)).
Proof.
  intros l tb ex ctors thrower callers message P L. destruct ctors; [|discriminate L].
  exact (what_runtime_error l tb ex thrower callers message P).
Qed.
Print Assumptions C155_runtime_error.
Example C155_runtime_error_ex :
  what ex_lib (stack_of (1, "") (2, "") [] (4, "") [(5, ""); (6, "")])%Z "boom" = text ex_lib "boom" [(6, ""); (5, "")]%Z.
Proof. vm_compute. reflexivity. Qed.
(** And the text of a [KeyError] or [ValueError] ends with its constructor. *)
Theorem C155_dictionary_errors : forall l c tb ex inner own thrower callers message, plain_lib l ->
  nb_constructors c = 2 -> named l own ->
  exists frames, what l (stack_of tb ex [inner; own] thrower callers) message = text l (c_str message) (frames ++ [own]).
Proof. intros l c tb ex inner own thrower callers message P _ N. exact (what_dictionary_error l tb ex inner own thrower callers message P N). Qed.
Print Assumptions C155_dictionary_errors.
Example C155_dictionary_errors_ex : nb_constructors CKeyError = 2 /\
  what ex_lib (stack_of (1, "") (2, "") [(3, ""); (5, "")] (4, "") [])%Z "boom" = text ex_lib "boom" [(4, ""); (5, "")]%Z.
Proof. split; [reflexivity|]. vm_compute. reflexivity. Qed.
