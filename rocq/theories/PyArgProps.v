(** Properties of coordinates, shapes and numbers as arguments of Python calls. *)
From Verif Require Import Base GridModel GridSpec GridProofs GridProofs3 CoordModel RegistryModel PyCommModel PyCommProofs PyArgModel PyArgSpec PyArgProofs.
Local Open Scope Z_scope.
Local Open Scope list_scope.

(** ** C166 *)
(** The components of a field: none by default, an integer, any sequence of integers, or
    a [DynCcoord]. *)
Theorem C166_components : py_shape None = Some [] /\ (forall n, index64 n -> py_shape (Some (int_arg n)) = Some [n]) /\
  (forall k l, Forall index64 l -> py_shape (Some (int_seq k l)) = Some l) /\ (forall l, py_shape (Some (ACoord l)) = Some l).
Proof.
  split; [reflexivity|]. split; [|split; [|reflexivity]].
  - intros n R. unfold py_shape, components, overloads. cbn [first_fit load_index int_arg]. rewrite load64_int by exact R. reflexivity.
  - intros k l R. unfold py_shape, components, overloads. cbn [first_fit]. unfold load_vector. unfold int_seq at 2. rewrite load_all_ints by exact R.
    destruct k; [reflexivity|reflexivity|]. destruct l as [|n [|m l]]; reflexivity.
Qed.
Print Assumptions C166_components.
(** Other numbers, and lists and tuples that contain them, are refused with [TypeError]. *)
Theorem C166_components_refused : (forall x, not_int x -> py_shape (Some (ANum x)) = None) /\ py_shape (Some AOther) = None /\
  (forall k l, k <> KArray -> Exists not_int l -> py_shape (Some (ASeq k l)) = None).
Proof.
  split; [|split; [reflexivity|]].
  - intros x N. unfold py_shape, components, overloads. cbn [first_fit load_index load_vector]. rewrite !load64_not by exact N. reflexivity.
  - intros k l K E. unfold py_shape, components, overloads. cbn [first_fit load_vector]. rewrite !load_all_not by exact E. destruct k; [reflexivity|reflexivity|now destruct K].
Qed.
Print Assumptions C166_components_refused.
(** Coordinates: lists and tuples of at most three integers, and objects [DynCcoord] *)
Theorem C166_coordinates : (forall l, py_coord (ACoord l) = Some l) /\
  (forall k l, k <> KArray -> Forall index64 l -> (length l <= 3)%nat -> py_coord (int_seq k l) = Some l) /\
  (forall k l, (3 < length l)%nat -> py_coord (ASeq k l) = None) /\ (forall k l, Exists not_int l -> py_coord (ASeq k l) = None) /\
  (forall x, py_coord (ANum x) = None) /\ py_coord AOther = None.
Proof.
  assert (LA : forall c l s, load_all c l = Some s -> length s = length l).
  { intros c. induction l as [|x l IH]; intros s; cbn [load_all]; [now intros [= <-]|]. destruct (load64 c x); [|discriminate]. destruct (load_all c l) as [t|]; [|discriminate].
    intros [= <-]. cbn. now rewrite (IH t). }
  split; [reflexivity|]. split; [|split; [|split; [|split; reflexivity]]].
  - intros k l K R D. unfold py_coord, overloads. cbn [first_fit]. unfold int_seq, load_coord. destruct k; [| |now destruct K].
    all: rewrite load_all_ints by exact R; unfold c_of_list; destruct (Z.of_nat (length l) >? Z.of_nat 3) eqn:G; [apply Z.gtb_lt in G; lia|];
      unfold c_to_vector, c_range_ok; cbn [d_dim d_arr]; rewrite app_length, repeat_length;
      replace ((0 <=? Z.of_nat (length l)) && (Z.of_nat (length l) <=? Z.of_nat (length l + (3 - length l)))) with true
        by (symmetry; apply andb_true_intro; split; apply Z.leb_le; lia);
      rewrite Nat2Z.id, firstn_app, Nat.sub_diag, firstn_all; cbn [firstn]; now rewrite app_nil_r.
  - intros k l D. unfold py_coord, overloads. cbn [first_fit]. unfold load_coord. destruct k; [| |reflexivity].
    all: destruct (load_all true l) as [s|] eqn:E; [|reflexivity]; apply LA in E; unfold c_of_list; destruct (Z.of_nat (length s) >? Z.of_nat 3) eqn:G; [reflexivity|];
      apply Z.gtb_ltb in G || (rewrite Z.gtb_ltb in G; apply Z.ltb_ge in G; lia).
  - intros k l E. unfold py_coord, overloads. cbn [first_fit]. unfold load_coord. rewrite load_all_not by exact E. now destruct k.
Qed.
Print Assumptions C166_coordinates.
(** [get_domain_index] and [get_domain_ccoord] are inverse to each other. *)
Theorem C166_domain k1 k2 n : (1 <= length n <= 3)%nat -> Forall (fun x => 0 < x) n -> Forall index64 n -> zprod n < 2 ^ 31 ->
  (forall c, in_box n (repeat 0 (length n)) c -> exists i, domain_index (int_seq k1 n) (int_seq k2 c) = Some (Ok i) /\ 0 <= i < zprod n /\ domain_ccoord (int_seq k1 n) (int_arg i) = Some (Ok c)) /\
  (forall i, 0 <= i < zprod n -> exists c, domain_ccoord (int_seq k1 n) (int_arg i) = Some (Ok c) /\ in_box n (repeat 0 (length n)) c /\ domain_index (int_seq k1 n) (int_seq k2 c) = Some (Ok i)).
Proof.
  intros D P R V. assert (L : length (repeat 0 (length n)) = length n) by apply repeat_length. split.
  - intros c B. destruct (colmajor_ccoord_of_index n _ c L B V) as (i & I1 & I2 & I3). exists i.
    assert (Ri : index64 i) by (unfold index64; lia).
    rewrite domain_index_ints; [|exact R|exact (small_coords n c R B)|exact D|exact (proj1 B)]. rewrite domain_ccoord_ints by assumption. rewrite I1, I3. auto.
  - intros i Hi. destruct (colmajor_index_of_ccoord n _ i L P Hi V) as (c & I1 & I2 & I3). exists c.
    assert (Ri : index64 i) by (unfold index64; lia).
    rewrite domain_ccoord_ints by assumption. rewrite domain_index_ints; [|exact R|exact (small_coords n c R I2)|exact D|exact (proj1 I2)]. rewrite I1, I3. auto.
Qed.
Print Assumptions C166_domain.
(** Different or other numbers of dimensions are refused. *)
Theorem C166_domain_refused k1 k2 n c : Forall index64 n -> Forall index64 c -> length n <> length c \/ ~ (1 <= length n <= 3)%nat -> domain_index (int_seq k1 n) (int_seq k2 c) = None.
Proof.
  intros Rn Rc H. unfold domain_index, overloads. cbn [map first_fit]. rewrite !(load_static_ints _ _ _ _ Rn), !(load_static_ints _ _ _ _ Rc).
  destruct (length n) as [|[|[|[|m]]]] eqn:E, (length c) as [|[|[|[|m']]]] eqn:E'; cbn [Nat.eqb pair_of option_map]; try reflexivity; exfalso; destruct H as [H|H]; lia.
Qed.
Print Assumptions C166_domain_refused.
(** Cubes of integers and floats *)
Theorem C166_cube d : (forall n, index64 n -> cube d (NInt n) = Some (repeat (NInt n) d)) /\ (forall r, cube d (NFloat r) = Some (repeat (NFloat r) d)) /\ (forall r i, cube d (NComplex r i) = None).
Proof.
  split; [|split; reflexivity]. intros n R. unfold cube, choose. cbn [first_of load_scalar load_integer]. unfold index64 in R. rewrite within_yes by lia. reflexivity.
Qed.
Print Assumptions C166_cube.
Example C166_case : py_shape (Some (int_seq KTuple [2; 3])) = Some [2; 3] /\ py_shape (Some (int_arg 4)) = Some [4] /\ py_coord (int_seq KList [5; 4; 3]) = Some [5; 4; 3] /\
  domain_index (int_seq KList [5; 4]) (int_seq KTuple [2; 3]) = Some (Ok 17) /\ domain_ccoord (int_seq KList [5; 4]) (int_arg 17) = Some (Ok [2; 3]) /\
  cube 2 (NInt 7) = Some [NInt 7; NInt 7] /\ domain_index (int_seq KList [5; 4]) (int_seq KTuple [2; 3; 1]) = None.
Proof. vm_compute. repeat split; reflexivity. Qed.

(** ** C167: what goes wrong *)
(** [numpy.float32(2.5)] counts as two, as does an array with the element 2.5; arrays of
    numpy are no coordinates. *)
Theorem C167_numbers_refuted : py_shape (Some (ANum (NReal 4612811918334230528))) = Some [2] /\ py_shape (Some (ASeq KArray [NFloat 4612811918334230528])) = Some [2] /\
  py_coord (ASeq KList [NReal 4612811918334230528; NInt 3]) = Some [2; 3] /\ cube 2 (NReal 4612811918334230528) = Some [NInt 2; NInt 2] /\
  (forall l, py_coord (ASeq KArray l) = None).
Proof. repeat split. Qed.
Print Assumptions C167_numbers_refuted.
(** Indices behind the domain start over, those before it give negative coordinates,
    indices of large domains overflow, and a domain without points is undefined
    behaviour. *)
Theorem C167_domain_refuted : (forall k n, (1 <= n < 2 ^ 63) -> domain_ccoord (int_seq k [n]) (int_arg n) = Some (Ok [0])) /\
  domain_ccoord (int_seq KList [5; 4]) (int_arg 20) = Some (Ok [0; 0]) /\ domain_ccoord (int_seq KList [5; 4]) (int_arg (-1)) = Some (Ok [-1; 0]) /\
  domain_index (int_seq KList [65536; 65536]) (int_seq KList [0; 32768]) = Some (Ok (- 2 ^ 31)) /\ domain_ccoord (int_seq KList [0; 4]) (int_arg 0) = Some UB.
Proof.
  split; [|vm_compute; repeat split; reflexivity]. intros k n R. assert (Rn : index64 n) by (unfold index64; lia).
  rewrite domain_ccoord_ints; [|constructor; [exact Rn|constructor]|exact Rn|cbn; lia]. cbn [length repeat]. unfold get_ccoord. cbn [get_ccoord_loop].
  replace (1 =? 0) with false by reflexivity. destruct (n =? 0) eqn:E; [apply Z.eqb_eq in E; lia|]. cbn [orb bind]. rewrite Z.quot_1_r, Z.rem_same by lia. reflexivity.
Qed.
Print Assumptions C167_domain_refuted.
(** [Unit.length()] needs a tag in Python; the tags are the integers with 32 bits. *)
Theorem C167_unit_refuted : unit_tag None = None /\ forall n m, unit_tag (Some (NInt n)) = Some m <-> n = m /\ - 2 ^ 31 <= n < 2 ^ 31.
Proof.
  split; [reflexivity|]. intros n m. unfold unit_tag. cbn [load_scalar load_integer]. split.
  - unfold within_type. destruct ((- 2 ^ 31 <=? n) && (n <=? 2 ^ 31 - 1)) eqn:W; [|discriminate]. intros E. inversion E. subst. apply andb_true_iff in W. lia.
  - intros [<- R]. rewrite within_yes by lia. reflexivity.
Qed.
Print Assumptions C167_unit_refuted.
Example C167_case : py_shape (Some (ASeq KList [NFloat 4612811918334230528])) = None /\ unit_tag (Some (NInt (2 ^ 31))) = None /\ unit_tag (Some (NInt 5)) = Some 5.
Proof. vm_compute. repeat split; reflexivity. Qed.
