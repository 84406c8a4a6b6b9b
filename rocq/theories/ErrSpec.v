(** Vocabulary for the texts of errors. *)
From Coq Require Import String Ascii.
From Verif Require Import Base ErrModel.
Local Open Scope string_scope.
Local Open Scope list_scope.

(** No NUL inside. *)
Fixpoint plain (s : string) : Prop :=
  match s with EmptyString => True | String c r => c <> "000"%char /\ plain r end.
(** A loader whose names are plain. *)
Definition plain_lib (l : clib) : Prop :=
  (forall s d, demangle l s = Some d -> plain d) /\
  (forall a i, dladdr l a = Some i ->
     (forall s, dli_sname i = Some s -> plain s) /\ (forall s, dli_fname i = Some s -> plain s)).
(** A frame has a name. *)
Definition named (l : clib) (f : Z * string) : Prop :=
  exists i s, dladdr l (fst f) = Some i /\ dli_sname i = Some s.
(** The readable name of a frame, and its file. *)
Definition name_of (l : clib) (f : Z * string) : string :=
  match dladdr l (fst f) with
  | Some i => match dli_sname i with
              | Some s => match demangle l s with Some d => d | None => s end
              | None => ""
              end
  | None => ""
  end.
Definition file_of (l : clib) (f : Z * string) : string :=
  match dladdr l (fst f) with
  | Some i => match dli_fname i with Some s => s | None => "" end
  | None => ""
  end.
(** The two lines for a frame. *)
Definition lines (l : clib) (f : Z * string) : string :=
  ("  File """ ++ file_of l f ++ """" ++ nl ++ "    " ++ name_of l f)%string.
(** The text of an error with the given frames, outermost first. *)
Definition text (l : clib) (message : string) (frames : list (Z * string)) : string :=
  (message ++ nl ++ "Traceback from C++ library (most recent call last):" ++ nl ++ String.concat nl (map (lines l) frames))%string.
