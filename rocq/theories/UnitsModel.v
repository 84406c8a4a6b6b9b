(** Physical units (units.cc / units.hh) and physics domains
    (physics_domain.cc).  [Int] is a 32-bit [int] (grid_common.hh:84); signed
    overflow is undefined behaviour and is modelled as such. *)
From Verif Require Import Base.

(** The value of an [int] expression: undefined outside of the 32-bit range. *)
Definition ci (z : Z) : res Z := if (- 2 ^ 31 <=? z) && (z <? 2 ^ 31) then Ok z else UB.

(** units.cc:51-83 [compute_gcd_worker].  [~a & 1] is non-zero exactly for even
    [a].  The recursion is unbounded in the code; here it runs on explicit fuel
    and returns [None] when the fuel is used up. *)
Fixpoint gcd_worker (fuel : nat) (a b : Z) : option Z :=
  match fuel with
  | O => None
  | S k =>
      if a =? b then Some a
      else if a =? 0 then Some b
      else if b =? 0 then Some a
      else if Z.even a then
             if Z.even b then option_map (fun g => Z.shiftl g 1) (gcd_worker k (Z.shiftr a 1) (Z.shiftr b 1))
             else gcd_worker k (Z.shiftr a 1) b
           else if Z.even b then gcd_worker k a (Z.shiftr b 1)
           else if b <? a then gcd_worker k (Z.shiftr (a - b) 1) b
           else gcd_worker k (Z.shiftr (b - a) 1) a
  end.

(** Recursion depth that suffices for 32-bit arguments
    (UnitsProofs.gcd_worker_correct). *)
Definition gcd_fuel : nat := 64.

(** units.cc:89-94 [compute_gcd]; [std::abs] of the smallest [int] is undefined. *)
Definition compute_gcd (a b : Z) : res Z :=
  let! a' := ci (Z.abs a) in
  let! b' := ci (Z.abs b) in
  match gcd_worker gcd_fuel a' b' with Some g => Ok g | None => UB end.

(** units.hh:90-142 [UnitExponent]. *)
Record uexp := mk_ue { ue_num : Z; ue_den : Z }.

(** units.hh:92, 140-141: the default constructor zero-initialises both. *)
Definition ue_default : uexp := mk_ue 0 0.

(** units.cc:174-180 [reduce]; [signbit] of a non-zero [int] tells whether it
    is negative. *)
Definition ue_reduce (e : uexp) : res uexp :=
  let! g := compute_gcd (ue_num e) (ue_den e) in
  let gcd := (if ue_den e <? 0 then -1 else 1) * g in
  if gcd =? 0 then UB
  else
    let! n := ci (Z.quot (ue_num e) gcd) in
    let! d := ci (Z.quot (ue_den e) gcd) in
    Ok (mk_ue n d).

(** units.cc:100-106: constructor. *)
Definition ue_make (num den : Z) : res uexp :=
  if den =? 0 then Err UnitError else ue_reduce (mk_ue num den).

(** units.cc:109-112 [operator==]. *)
Definition ue_eqb (a b : uexp) : bool := (ue_num a =? ue_num b) && (ue_den a =? ue_den b).

(** units.cc:148-154 [operator*]: add the exponents. *)
Definition ue_mul (a b : uexp) : res uexp :=
  let! x := ci (ue_num a * ue_den b) in
  let! y := ci (ue_num b * ue_den a) in
  let! num := ci (x + y) in
  let! den := ci (ue_den a * ue_den b) in
  ue_make num den.

(** units.cc:157-163 [operator/]: subtract the exponents. *)
Definition ue_div (a b : uexp) : res uexp :=
  let! x := ci (ue_num a * ue_den b) in
  let! y := ci (ue_num b * ue_den a) in
  let! num := ci (x - y) in
  let! den := ci (ue_den a * ue_den b) in
  ue_make num den.

(** units.cc:120-123 [operator<]. *)
Definition ue_lt (a b : uexp) : res bool :=
  let! d := ue_div a b in Ok (ue_num d <? 0).

(** units.cc:126-145 [operator+], [operator-]. *)
Definition ue_add (a b : uexp) : res uexp := if ue_eqb a b then Ok a else Err UnitError.
Definition ue_sub (a b : uexp) : res uexp := if ue_eqb a b then Ok a else Err UnitError.

(** units.hh:146-290 [Unit]: seven exponents and a tag. *)
Record unit_t := mk_unit { u_exps : list uexp; u_tag : Z }.
Definition nb_units : nat := 7.

(** Apply a binary exponent operation to the exponents in order. *)
Fixpoint zipM {A B C} (f : A -> B -> res C) (l : list A) (m : list B) : res (list C) :=
  match l, m with
  | x :: l', y :: m' => let! z := f x y in let! r := zipM f l' m' in Ok (z :: r)
  | _, _ => Ok []
  end.

(** units.cc:447-453, 262-265: tagged constructor and [unitless];
    [UnitExponent(0)] is 0/1. *)
Definition unitless (tag : Z) : unit_t := mk_unit (repeat (mk_ue 0 1) nb_units) tag.
(** units.cc:268-321: the base unit factories set one exponent to 1. *)
Definition base_unit (i : nat) (tag : Z) : unit_t :=
  mk_unit (upd (repeat (mk_ue 0 1) nb_units) i (mk_ue 1 1)) tag.
Definition u_length := base_unit 0.
Definition u_mass := base_unit 1.
Definition u_time := base_unit 2.
Definition u_temperature := base_unit 3.

(** units.cc:376-378 [operator==]; the arrays are compared element-wise. *)
Fixpoint ues_eqb (l m : list uexp) : bool :=
  match l, m with
  | [], [] => true
  | x :: l', y :: m' => ue_eqb x y && ues_eqb l' m'
  | _, _ => false
  end.
Definition unit_eqb (a b : unit_t) : bool := (u_tag a =? u_tag b) && ues_eqb (u_exps a) (u_exps b).

(** units.cc:384-390 [operator<]; [std::array] comparison is lexicographic
    using the element's [operator<] in both directions. *)
Fixpoint ues_lt (l m : list uexp) : res bool :=
  match l, m with
  | x :: l', y :: m' =>
      let! b := ue_lt x y in
      if b then Ok true
      else let! b' := ue_lt y x in
           if b' then Ok false else ues_lt l' m'
  | [], _ :: _ => Ok true
  | _, [] => Ok false
  end.
Definition unit_lt (a b : unit_t) : res bool :=
  if negb (u_tag a =? u_tag b) then Ok (u_tag a <? u_tag b)
  else ues_lt (u_exps a) (u_exps b).

(** units.cc:364-373 [check_tags] followed by the loops of units.cc:393-444. *)
Definition unit_op (f : uexp -> uexp -> res uexp) (a b : unit_t) : res unit_t :=
  if negb (u_tag a =? u_tag b) then Err UnitError
  else let! es := zipM f (u_exps a) (u_exps b) in Ok (mk_unit es (u_tag a)).
Definition unit_add := unit_op ue_add.
Definition unit_sub := unit_op ue_sub.
Definition unit_mul := unit_op ue_mul.
Definition unit_div := unit_op ue_div.

(** units.cc:317-324 [force] and [stress]. *)
Definition u_force (tag : Z) : res unit_t :=
  let! a := unit_mul (u_mass tag) (u_length tag) in
  let! b := unit_div a (u_time tag) in unit_div b (u_time tag).
Definition u_stress (tag : Z) : res unit_t :=
  let! f := u_force tag in
  let! a := unit_div f (u_length tag) in unit_div a (u_length tag).

(** physics_domain.hh / physics_domain.cc:42-91: a tuple (rank, input unit,
    output unit) and a display name that takes no part in comparisons.  The
    name is a number here. *)
Record pdomain := mk_pd { pd_rank : Z; pd_in : unit_t; pd_out : unit_t; pd_name : Z }.
(** physics_domain.cc:45-47 *)
Definition energy_density : res unit_t :=
  let! lt_ := unit_mul (u_length 0) (u_time 0) in
  let! ltt := unit_mul lt_ (u_time 0) in
  unit_div (u_mass 0) ltt.
(** physics_domain.cc:42-56: the result tells whether the warning is printed. *)
Definition pd_make (rank : Z) (i o : unit_t) (name : Z) : res (pdomain * bool) :=
  let! product := unit_mul i o in
  let! ed := energy_density in
  Ok (mk_pd rank i o name, negb (unit_eqb product ed)).
(** physics_domain.cc:88-91 *)
Definition pd_eqb (a b : pdomain) : bool :=
  (pd_rank a =? pd_rank b) && unit_eqb (pd_in a) (pd_in b) && unit_eqb (pd_out a) (pd_out b).
(** physics_domain.cc:64-67: [std::tuple]'s lexicographic [operator<]. *)
Definition pd_lt (a b : pdomain) : res bool :=
  if pd_rank a <? pd_rank b then Ok true
  else if pd_rank b <? pd_rank a then Ok false
  else
    let! x := unit_lt (pd_in a) (pd_in b) in
    if x then Ok true
    else let! y := unit_lt (pd_in b) (pd_in a) in
         if y then Ok false else unit_lt (pd_out a) (pd_out b).
(** physics_domain.cc:70-73 [mechanics] *)
Definition pd_mechanics (tag : Z) : res (pdomain * bool) :=
  let! s := u_stress tag in pd_make 2 (unitless tag) s 0.
(** physics_domain.cc:76-81 [heat] *)
Definition pd_heat (tag : Z) : res (pdomain * bool) :=
  let! i := unit_div (u_temperature tag) (u_length tag) in
  let! a := unit_div (u_mass tag) (u_time tag) in
  let! b := unit_div a (u_time tag) in
  let! o := unit_div b (u_time tag) in pd_make 1 i o 1.
