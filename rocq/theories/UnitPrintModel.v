(** Printing units and physics domains (units.cc:182-249, 456-484,
    physics_domain.cc:76-81, 105-109).  A stream is the string of bytes put into
    it; the literals of the source file are UTF-8, as are those below.  Formatting
    flags of the stream (width, base, ...) keep their defaults. *)
From Coq Require Import String Ascii DecimalString DecimalZ.
From Verif Require Import Base UnitsModel.
Local Open Scope string_scope.
Local Open Scope Z_scope.
Local Open Scope list_scope.

(** [std::ostream::operator<<(int)]: decimal digits with a leading minus sign. *)
Definition show_int (z : Z) : string := NilEmpty.string_of_int (Z.to_int z).

(** units.cc:187-233: the switch over one character. *)
Definition super_char (c : ascii) : res string :=
  match c with
  | "0"%char => Ok "⁰" | "1"%char => Ok "¹" | "2"%char => Ok "²" | "3"%char => Ok "³" | "4"%char => Ok "⁴"
  | "5"%char => Ok "⁵" | "6"%char => Ok "⁶" | "7"%char => Ok "⁷" | "8"%char => Ok "⁸" | "9"%char => Ok "⁹"
  | "-"%char => Ok "⁻"
  | _ => Err RuntimeError
  end.
(** units.cc:186: the loop over the characters of the number. *)
Fixpoint super_chars (s : string) : res string :=
  match s with
  | EmptyString => Ok ""
  | String c r => let! x := super_char c in let! y := super_chars r in Ok (x ++ y)%string
  end.
(** units.cc:182-237 [superscript]. *)
Definition superscript (val : Z) : res string := super_chars (show_int val).

(** units.cc:240-249 [operator<<] for an exponent. *)
Definition show_exp (e : uexp) : res string :=
  if ue_den e =? 1 then
    if negb (ue_num e =? 1) then superscript (ue_num e) else Ok ""
  else Ok ("^(" ++ show_int (ue_num e) ++ "/" ++ show_int (ue_den e) ++ ")")%string.

(** units.cc:457-458: the names of the base units. *)
Definition unit_names : list string := ["l"; "m"; "t"; "T"; "I"; "Iᵥ"; "mol"].

(** units.cc:459-471: the loop, with the flag [first] and the text so far;
    [zip] stops at the shorter list. *)
Fixpoint show_loop (first : bool) (names : list string) (es : list uexp) : res (bool * string) :=
  match names, es with
  | n :: names', e :: es' =>
      if negb (ue_num e =? 0) then
        let! x := show_exp e in
        let! r := show_loop false names' es' in
        Ok (fst r, ((if first then "" else "·") ++ n ++ x ++ snd r)%string)
      else show_loop first names' es'
  | _, _ => Ok (first, "")
  end.

(** units.cc:456-484 [operator<<] for a unit.  If nothing has been printed, a
    non-zero tag clears [first] without being printed. *)
Definition show_unit (u : unit_t) : res string :=
  let! r := show_loop true unit_names (u_exps u) in
  let (first, s) := r in
  if negb (u_tag u =? 0) then
    if first then Ok s
    else Ok (s ++ ", tag(" ++ show_int (u_tag u) ++ ")")%string
  else if first then Ok (s ++ "no unit provided")%string
  else Ok s.

(** physics_domain.cc:103-107 [operator<<]: rank, input and output unit, not the
    name. *)
Definition show_pd (d : pdomain) : res string :=
  let! i := show_unit (pd_in d) in
  let! o := show_unit (pd_out d) in
  Ok ("Domain(rank: " ++ show_int (pd_rank d) ++ ", input: " ++ i ++ ", output: " ++ o ++ ")")%string.

(** physics_domain.cc:76-81 [heat]; the name [heat] is the number 1. *)
Definition pd_heat (tag : Z) : res (pdomain * bool) :=
  let! i := unit_div (u_temperature tag) (u_length tag) in
  let! a := unit_div (u_mass tag) (u_time tag) in
  let! b := unit_div a (u_time tag) in
  let! o := unit_div b (u_time tag) in
  pd_make 1 i o 1.
