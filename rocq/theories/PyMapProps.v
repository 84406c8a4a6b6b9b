(** C170, C171, C172, C173: typed getters, field maps and state fields in Python. *)
From Coq Require Import String.
From Verif Require Import Base CIntModel GridModel GridSpec StridedModel UnitsModel LayoutModel LayoutSpec FieldModel FieldSpec.
From Verif Require Import RegistryModel RegistrySpec StateModel NumpyModel PyArrayModel PyArraySpec PyCommModel PyArgModel PyMapModel PyMapSpec PyMapProofs RegistryProps.
Local Open Scope Z_scope.
Local Open Scope list_scope.

(** ** C170: typed getters *)

(** A getter gives the field of that name exactly if it holds scalars of that type. *)
Theorem C170_typed {A} ty (c : coll A) name r : py_get_field ty c name = Ok r <-> get_field c name = Ok r /\ rf_type r = ty.
Proof. apply typed_ok. Qed.
Print Assumptions C170_typed.
Theorem C170_refused {A} ty (c : coll A) name :
  (forall r, get_field c name = Ok r -> rf_type r <> ty -> py_get_field ty c name = Err RuntimeError) /\
  ((forall r, get_field c name <> Ok r) -> py_get_field ty c name = Err FieldCollectionError).
Proof. split; [intros r; apply typed_other|apply typed_unknown]. Qed.
Print Assumptions C170_refused.

(** Once a program registered a field, the getter of its type gives it and the others
    refuse, whatever the program does afterwards. *)
Theorem C170_program {A} (zero junk : A) s name ty comp tag u al s1 l :
  pystep zero junk s (PColl (ORegister name ty comp tag u al)) = (s1, Ok tt) ->
  exists r, get_field (p_coll (pyrun zero junk s1 l)) name = Ok r /\
    forall ty', py_get_field ty' (p_coll (pyrun zero junk s1 l)) name = if ftype_eqb ty' ty then Ok r else Err RuntimeError.
Proof. apply typed_program. Qed.
Print Assumptions C170_program.

(** A 2 x 3 grid with a field [u] of two components and an integer field [n]. *)
Definition base : coll Z := match new_coll true ColMajor [("quad"%string, 2)] with Ok c => c | _ => mk_coll true ColMajor [] false 0 0 [] [] [] [] end.
Definition grid : coll Z := run 0 base
  [ORegister "u" Real (inr [2]) "quad" (unitless 0) false; OInitGlobalOrder [2; 3] [] [] Automatic;
   ORegister "n" Int (inr []) "pixel" (unitless 0) false].
Example C170_case : is_ok (py_get_field Real grid "u") = true /\ py_get_field Int grid "u" = Err RuntimeError /\
  is_ok (py_get_field Int grid "n") = true /\ py_get_field Uint grid "n" = Err RuntimeError /\ py_get_field Real grid "v" = Err FieldCollectionError.
Proof. vm_compute. auto. Qed.
Example C170_program_case : exists s1, pystep 0 7 (mk_session base []) (PColl (ORegister "u" Real (inr [2]) "quad" (unitless 0) false)) = (s1, Ok tt) /\
  let c := p_coll (pyrun 0 7 s1 [PColl (ORegister "u" Int (inr [2]) "quad" (unitless 0) true); PColl (OInitGlobalOrder [2; 3] [] [] Automatic); PZero "u"]) in
  is_ok (py_get_field Real c "u") = true /\ py_get_field Int c "u" = Err RuntimeError.
Proof. eexists. split; [reflexivity|]. vm_compute. auto. Qed.

(** ** C171: maps *)

(** [set_uniform] with an array of the map's shape makes the scalars of every entry those
    of the array, read by columns, and changes no other field. *)
Theorem C171_uniform {A} (zero : A) c name r u a m x : get_field c name = Ok r -> ready (rf_field r) -> unpadded (rf_field r) ->
  py_map c name u a = Some (Ok m) -> 0 < m_rows (q_map m) -> suits x (rf_type r) (m_rows (q_map m)) (m_cols (q_map m)) ->
  exists c' r', py_set_uniform zero c m (VArray x) = Some (c', Ok tt) /\ get_field c' name = Ok r' /\
    (forall n, n <> name -> get_field c' n = get_field c n) /\ f_lay (rf_field r') = f_lay (rf_field r) /\ rf_type r' = rf_type r /\
    forall comp q p, in_shape (l_comp (f_lay (rf_field r))) comp -> 0 <= q < l_nsub (f_lay (rf_field r)) -> in_shape (l_pix (f_lay (rf_field r))) p ->
      let k := place (rf_field r) u comp q in
      exists v, value (rf_field r') (comp ++ [q] ++ p) = Ok v /\ element x (m_cols (q_map m)) (k mod m_rows (q_map m)) (k / m_rows (q_map m)) = Some v.
Proof. exact (uniform_values zero c name r u a m x). Qed.
Print Assumptions C171_uniform.

(** What is assumed of the field holds in every program with an initialised collection
    whose buffer has no padding; initialisation gives such pixels (C17). *)
Theorem C171_applies {A} (zero : A) c name r : sensibly_reachable zero true c -> c_init c = true -> good_pixels c -> c_nbuf c = c_npix c ->
  get_field c name = Ok r -> ready (rf_field r) /\ unpadded (rf_field r).
Proof.
  intros S I G N E. split; [exact (C17_ready zero c name r S I G E)|]. destruct (C17_storage zero true c name r S I E) as (_ & _ & _ & _ & _ & _ & Se & _).
  destruct Se as (_ & _ & _ & S4 & S5 & _). unfold unpadded. now rewrite S4, S5.
Qed.
Print Assumptions C171_applies.

(** [mean] gives a new matrix: element (i, j) is the mean of that element over the
    entries, in their order; zero if there are none. *)
Theorem C171_mean {A} (zero : A) add div c name r u a m : get_field c name = Ok r -> ready (rf_field r) -> unpadded (rf_field r) ->
  py_map c name u a = Some (Ok m) -> 0 < m_rows (q_map m) ->
  exists s, py_mean zero add div c m = Ok s /\ d_type s = Some (rf_type r) /\ d_writeable s = true /\ d_reversed s = false /\
    d_dims s = [Z.to_nat (m_rows (q_map m)); Z.to_nat (m_cols (q_map m))] /\
    length (d_entries s) = (Z.to_nat (m_rows (q_map m)) * Z.to_nat (m_cols (q_map m)))%nat /\
    exists es, map_iterate (q_map m) (rf_field r) = Ok es /\ Z.of_nat (length es) = entries_of (rf_field r) u /\
    forall i j, 0 <= i < m_rows (q_map m) -> 0 <= j < m_cols (q_map m) ->
      element s (m_cols (q_map m)) i j =
      Some (match es with [] => zero | _ => div (fold_left add (map (fun e => nth (Z.to_nat (i + m_rows (q_map m) * j)) e zero) es) zero) (entries_of (rf_field r) u) end).
Proof. exact (mean_elements zero add div c name r u a m). Qed.
Print Assumptions C171_mean.

(** The mean after [set_uniform] is the array that was set, where division undoes
    repeated addition. *)
Theorem C171_uniform_mean {A} (zero : A) add div c name r u a m x : (forall n v, 0 < n -> div (copies zero add n v) n = v) ->
  get_field c name = Ok r -> ready (rf_field r) -> unpadded (rf_field r) -> 0 < entries_of (rf_field r) u ->
  py_map c name u a = Some (Ok m) -> 0 < m_rows (q_map m) -> suits x (rf_type r) (m_rows (q_map m)) (m_cols (q_map m)) ->
  exists c' s, py_set_uniform zero c m (VArray x) = Some (c', Ok tt) /\ py_mean zero add div c' m = Ok s /\ d_entries s = d_entries x /\
    d_dims s = [Z.to_nat (m_rows (q_map m)); Z.to_nat (m_cols (q_map m))].
Proof. exact (uniform_mean zero add div c name r u a m x). Qed.
Print Assumptions C171_uniform_mean.

(** Arrays of another shape are refused and change nothing. *)
Theorem C171_shape {A} (zero : A) c name r u a m x rows cols : get_field c name = Ok r -> py_map c name u a = Some (Ok m) ->
  suits x (rf_type r) rows cols -> 0 <= rows -> 0 <= cols -> rows <> m_rows (q_map m) \/ cols <> m_cols (q_map m) ->
  exists c', py_set_uniform zero c m (VArray x) = Some (c', Err FieldMapError) /\ forall n, get_field c' n = get_field c n.
Proof. exact (wrong_shape zero c name r u a m x rows cols). Qed.
Print Assumptions C171_shape.

(** The argument for the number of rows: none and -1 are the default, other integers are
    taken as they are. *)
Theorem C171_rows {A} (c : coll A) name u : py_map c name u None = py_map c name u (Some (ANum (NInt (-1)))) /\
  (forall n r, n <> -1 -> - 2 ^ 63 <= n < 2 ^ 63 -> get_field c name = Ok r ->
     py_map c name u (Some (ANum (NInt n))) = Some (let! m := new_map (rf_field r) u (Some n) in Ok (mk_pymap name (rf_type r) m))) /\
  (forall b, py_map c name u (Some (ANum (NFloat b))) = None).
Proof. exact (rows_given c name u). Qed.
Print Assumptions C171_rows.

Definition array22 : ndarray Z := mk_ndarray (Some Real) [2; 2]%nat [1; 2; 3; 4] true false.
Example C171_case : exists m c' s, py_map grid "u" Pixel None = Some (Ok m) /\ m_rows (q_map m) = 2 /\ m_cols (q_map m) = 2 /\
  py_set_uniform 0 grid m (VArray array22) = Some (c', Ok tt) /\ py_mean 0 Z.add Z.quot c' m = Ok s /\ d_entries s = [1; 2; 3; 4] /\
  (exists r, get_field c' "u" = Ok r /\ value (rf_field r) [1; 0; 1; 2] = Ok 3 /\ value (rf_field r) [0; 1; 1; 2] = Ok 2) /\
  option_map snd (py_set_uniform 0 grid m (VArray (mk_ndarray (Some Real) [4]%nat [1; 2; 3; 4] true false))) = Some (Err FieldMapError).
Proof.
  do 3 eexists. split; [vm_compute; reflexivity|]. split; [reflexivity|]. split; [reflexivity|]. split; [vm_compute; reflexivity|].
  split; [vm_compute; reflexivity|]. split; [reflexivity|]. split; [|vm_compute; reflexivity]. eexists. split; [vm_compute; reflexivity|].
  split; vm_compute; reflexivity.
Qed.

(** The grid meets the hypotheses of [C171_applies]. *)
Example C171_applies_case : sensibly_reachable 0 true grid /\ c_init grid = true /\ good_pixels grid /\ c_nbuf grid = c_npix grid /\ is_ok (get_field grid "u") = true.
Proof.
  split; [|split; [vm_compute; reflexivity|split; [|split; vm_compute; reflexivity]]].
  - exists true, ColMajor, [("quad"%string, 2)], base. eexists. split; [reflexivity|]. split; [constructor; [reflexivity|constructor]|]. split; [|unfold grid; reflexivity].
    split; [|split; [exact I|split; [|exact I]]]; (split; [repeat (constructor; try reflexivity)|vm_compute; reflexivity]).
  - assert (E : good_pixels (fst (step 0 (fst (step 0 base (ORegister "u" Real (inr [2]) "quad" (unitless 0) false))) (OInitGlobalOrder [2; 3] [] [] Automatic)))).
    { apply (C17_sound_pixels_global 0); [vm_compute; reflexivity|left; vm_compute; reflexivity| |repeat (constructor; try reflexivity)|vm_compute; reflexivity].
      exists true, ColMajor, [("quad"%string, 2)], base, [ORegister "u" Real (inr [2]) "quad" (unitless 0) false]. split; reflexivity. }
    revert E. vm_compute. trivial.
Qed.

(** Integers that do not overflow meet the condition of [C171_uniform_mean]. *)
Example C171_division_case : forall n v, 0 < n -> Z.quot (copies 0 Z.add n v) n = v.
Proof. exact copies_integers. Qed.

(** ** C172: what maps do not do *)

(** Numbers, lists, arrays of another type and arrays that cannot be written are not
    taken as values. *)
Theorem C172_values_refuted : exists m c', py_map grid "u" SubPt None = Some (Ok m) /\
  py_set_uniform 0 grid m (VArray (mk_ndarray (Some Real) [2]%nat [5; 6] true false)) = Some (c', Ok tt) /\
  py_set_uniform 0 grid m VOther = None /\
  (forall t, t <> Real -> py_set_uniform 0 grid m (VArray (mk_ndarray (Some t) [2]%nat [5; 6] true false)) = None) /\
  py_set_uniform 0 grid m (VArray (mk_ndarray (Some Real) [2]%nat [5; 6] false false)) = None /\
  py_set_uniform 0 grid m (VArray (mk_ndarray (Some Real) [2]%nat [5; 6] true true)) = None.
Proof.
  do 2 eexists. split; [vm_compute; reflexivity|]. split; [vm_compute; reflexivity|]. split; [reflexivity|]. split; [|split; reflexivity].
  intros t H. destruct t; try reflexivity. contradiction.
Qed.
Print Assumptions C172_values_refuted.

(** The mean of an integer field is truncated: of 0 and 1 it is 0. *)
Definition two : coll Z := run 0 base
  [ORegister "n" Int (inr []) "pixel" (unitless 0) false; ORegister "k" Uint (inr []) "pixel" (unitless 0) false;
   OInitGlobalOrder [2] [] [] Automatic; OWrite "n" 1 1].
Theorem C172_integer_mean_refuted : exists m s r, get_field two "n" = Ok r /\ f_vals (rf_field r) = [0; 1] /\ rf_type r = Int /\
  py_map two "n" Pixel None = Some (Ok m) /\ py_mean 0 Z.add Z.quot two m = Ok s /\ d_entries s = [0] /\ 2 * 0 <> 0 + 1.
Proof.
  do 3 eexists. split; [vm_compute; reflexivity|]. split; [vm_compute; reflexivity|]. split; [reflexivity|]. split; [vm_compute; reflexivity|].
  split; [vm_compute; reflexivity|]. split; [reflexivity|lia].
Qed.
Print Assumptions C172_integer_mean_refuted.
(** With unsigned integers of 32 bits the sum wraps: the mean of 2^31 and 2^31 is 0. *)
Definition add32 (x y : Z) : Z := (x + y) mod 2 ^ 32.
Theorem C172_unsigned_mean_refuted : exists m c' s, py_map two "k" Pixel None = Some (Ok m) /\ q_type m = Uint /\
  py_set_uniform 0 two m (VArray (mk_ndarray (Some Uint) [1]%nat [2 ^ 31] true false)) = Some (c', Ok tt) /\
  py_mean 0 add32 Z.quot c' m = Ok s /\ d_entries s = [0].
Proof.
  do 3 eexists. split; [vm_compute; reflexivity|]. split; [reflexivity|]. split; [vm_compute; reflexivity|]. split; [vm_compute; reflexivity|]. reflexivity.
Qed.
Print Assumptions C172_unsigned_mean_refuted.
(** No rows: a division by zero, not an exception. *)
Theorem C172_rows_refuted {A} (c : coll A) name r u : get_field c name = Ok r -> (u = Pixel -> has_nsub (rf_field r) = true) ->
  py_map c name u (Some (ANum (NInt 0))) = Some UB.
Proof. exact (zero_rows c name r u). Qed.
Print Assumptions C172_rows_refuted.
Example C172_rows_case : exists r, get_field grid "u" = Ok r /\ has_nsub (rf_field r) = true.
Proof. eexists. split; vm_compute; reflexivity. Qed.

(** ** C173: state fields *)

(** [current()] is [old(0)], [old()] is [old(1)]; other integers are steps ago, those
    beyond the memory are refused with [IndexError], negative ones, floats and complex
    numbers with [TypeError]. *)
Theorem C173_old {A} (y : sys A) p s : get_state y p = Ok s ->
  py_old y p (Some (NInt 0)) = Some (py_current y p) /\ py_old y p None = py_old y p (Some (NInt 1)) /\
  (forall n, 0 <= n < Z.of_nat (length (s_idx s)) -> n < 2 ^ 64 -> py_old y p (Some (NInt n)) = Some (field_at y p (Z.to_nat n))) /\
  (forall n, Z.of_nat (length (s_idx s)) <= n < 2 ^ 64 -> py_old y p (Some (NInt n)) = Some (Err OutOfRange)) /\
  (forall n, n < 0 -> py_old y p (Some (NInt n)) = None) /\
  (forall b, py_old y p (Some (NFloat b)) = None) /\ (forall re im, py_old y p (Some (NComplex re im)) = None).
Proof. exact (old_given y p s). Qed.
Print Assumptions C173_old.

Definition states : sys Z := srun 0 (mk_sys grid []) [SRegister "s" Real 1 1 "pixel" (unitless 0) false; SWrite "s" 0 5; SCycle "s"; SWrite "s" 0 6].
Example C173_case : exists s a b, get_state states "s" = Ok s /\ py_current states "s" = Ok a /\ f_vals (rf_field a) = [6; 0; 0; 0; 0; 0] /\
  py_old states "s" None = Some (Ok b) /\ f_vals (rf_field b) = [5; 0; 0; 0; 0; 0] /\ py_old states "s" (Some (NInt 2)) = Some (Err OutOfRange) /\
  py_old states "s" (Some (NInt (-1))) = None.
Proof.
  do 3 eexists. split; [vm_compute; reflexivity|]. split; [vm_compute; reflexivity|]. split; [reflexivity|]. split; [vm_compute; reflexivity|].
  split; [reflexivity|]. split; vm_compute; reflexivity.
Qed.
