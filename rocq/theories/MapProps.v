(** Properties of statically sized maps (C86-C88), of combinations of a map with
    one of its own entries (C89), of averages (C90) and of enumerations
    (C91, C92). *)
From Coq Require Import String.
From Verif Require Import Base GridSpec GridModel StridedModel UnitsModel LayoutModel LayoutSpec LayoutProofs FieldModel FieldSpec FieldProofs FieldProofs2.
From Verif Require Import RegistryModel RegistrySpec RegistryProps MapModel MapSpec MapProofs MapProofs2.
Local Open Scope Z_scope.
Local Open Scope list_scope.

(** A local collection with pixels 7 and 4, and a field with two sub-points per
    pixel that holds 10, 20, 30, 40. *)
Definition two_pixels : coll Z :=
  run 0 fresh_local [OAddPixel 7; OAddPixel 4; reg "f" "quad" 1; OInitLocal; OWrite "f" 0 10; OWrite "f" 1 20; OWrite "f" 2 30; OWrite "f" 3 40].
Definition the_field (c : coll Z) (name : string) : rfield Z :=
  match get_field c name with Ok r => r | _ => mk_rfield "" no_unit Real (new_field (mk_layout [] 0 0 ColMajor [] [] 0 0) false false) end.
Lemma two_pixels_sensible : sensibly_reachable 0 true two_pixels.
Proof.
  exists false, ColMajor, [("quad"%string, 2)], fresh_local, [OAddPixel 7; OAddPixel 4; reg "f" "quad" 1; OInitLocal; OWrite "f" 0 10; OWrite "f" 1 20; OWrite "f" 2 30; OWrite "f" 3 40].
  split; [vm_compute; reflexivity|]. split; [repeat constructor|]. split; [|reflexivity].
  cbn [sensible_history]. split; [exact I|]. split; [exact I|]. split; [split; reflexivity|]. repeat (split; [exact I|]). exact I.
Qed.
Lemma two_pixels_good : good_pixels two_pixels.
Proof.
  set (c0 := run 0 fresh_local [OAddPixel 7; OAddPixel 4; reg "f" "quad" 1]).
  pose proof (C17_sound_pixels_local 0 c0 ltac:(vm_compute; reflexivity) ltac:(left; vm_compute; reflexivity) (fresh_local_reachable _) ltac:(vm_compute; reflexivity)) as G.
  cbn zeta in G. destruct G as (_ & G & _). set (c1 := fst (step 0 c0 OInitLocal)) in *. 
  assert (E1 : c_order two_pixels = c_order c1) by (vm_compute; reflexivity). assert (E2 : c_pix two_pixels = c_pix c1) by (vm_compute; reflexivity).
  assert (E3 : c_pstr two_pixels = c_pstr c1) by (vm_compute; reflexivity). assert (E4 : c_nbuf two_pixels = c_nbuf c1) by (vm_compute; reflexivity).
  assert (E5 : c_npix two_pixels = c_npix c1) by (vm_compute; reflexivity).
  unfold good_pixels in *. rewrite E1, E2, E3, E4, E5. exact G.
Qed.
Lemma two_pixels_in_use : in_use 0 two_pixels "f" (the_field two_pixels "f").
Proof.
  split; [exact two_pixels_sensible|]. split; [vm_compute; reflexivity|]. split; [exact two_pixels_good|]. split; [vm_compute; reflexivity|]. split; vm_compute; reflexivity.
Qed.

Lemma two_pixels_ready : ready (rf_field (the_field two_pixels "f")) /\ unpadded (rf_field (the_field two_pixels "f")).
Proof. destruct two_pixels_in_use as (H1 & H2 & H3 & H4 & H5 & H6). destruct (registered_placed 0 _ _ _ H1 H2 H3 H4 H5 H6) as (R & U & _). auto. Qed.

(** ** C86: statically sized maps *)

(** Accepted exactly for the number of scalars an entry has; then with the
    shape of the iterate type. *)
Theorem C86_accepted_iff {A} (f : field A) u t : l_order (f_lay f) = ColMajor -> (u = Pixel -> has_nsub f = true) -> 0 < it_rows t -> 0 < it_cols t ->
  (it_rows t * it_cols t = scalars_per_entry f u -> exists m, new_static f u t = Ok m /\ m_rows m = it_rows t /\ m_cols m = it_cols t) /\
  (it_rows t * it_cols t <> scalars_per_entry f u -> new_static f u t = Err FieldMapError).
Proof. exact (new_static_iff f u t). Qed.
Print Assumptions C86_accepted_iff.

(** Both kinds of iteration visit the consecutive blocks of the buffer. *)
Theorem C86_partition {A} (f : field A) u t m : ready f -> unpadded f -> 0 < it_rows t -> new_static f u t = Ok m -> entries_of f u < 2 ^ 64 ->
  exists es, static_iterate t m f = Ok es /\ static_const_iterate t m f = Ok es /\ Z.of_nat (length es) = entries_of f u /\
    Forall (fun e => Z.of_nat (length e) = it_rows t * it_cols t) es /\
    concat es = firstn (Z.to_nat (buffer_scalars (f_lay f))) (f_vals f) /\
    (forall i e, 0 <= i -> nth_error es (Z.to_nat i) = Some e -> static_entry t m f i = Ok e).
Proof.
  intros R U P H Z. destruct (new_static_inv _ _ _ _ P H) as (Hm & E1 & E2 & E3 & E4).
  destruct (map_partition f u _ m R U Hm) as (es & I1 & I2 & I3 & I4 & I5).
  assert (I : m_init m = true). { destruct (new_map_shape _ _ _ _ Hm) as (_ & _ & _ & _ & I & _). rewrite I. apply R. }
  pose proof (count_nonneg f u R). destruct (static_iterate_same t m f E1 ltac:(rewrite E2, E3; reflexivity) I ltac:(lia)) as [S1 S2].
  exists es. split; [now rewrite S1|]. split; [now rewrite S2|]. split; [exact I2|]. rewrite E2, E3 in I4. split; [exact I4|]. split; [exact I5|].
  intros i e Hi He. assert (Hl : (Z.to_nat i < length es)%nat) by (apply nth_error_Some; congruence).
  rewrite static_entry_same; [|exact E1|rewrite E2, E3; reflexivity]. rewrite (entry_block f u _ m i R U Hm) by lia. f_equal.
  rewrite (iterate_blocks f u _ m R U Hm) in I1. apply Ok_inj in I1. subst es. fold (blk f u) in He. rewrite map_length, seq_length in Hl.
  change (nth_error (map (blk f u) (seq 0 (Z.to_nat (entries_of f u)))) (Z.to_nat i) = Some e) in He. rewrite nth_blk in He by exact Hl. injection He as <-. reflexivity.
Qed.
Print Assumptions C86_partition.

(** Which logical values an entry holds. *)
Theorem C86_sub_pt_entry {A} (f : field A) t m c q p : ready f -> unpadded f -> 0 < it_rows t -> new_static f SubPt t = Ok m ->
  in_shape (l_comp (f_lay f)) c -> 0 <= q < l_nsub (f_lay f) -> in_shape (l_pix (f_lay f)) p ->
  exists e, static_entry t m f (q + l_nsub (f_lay f) * off (l_pstr (f_lay f)) p) = Ok e /\
    rd e (off (running 1 (l_comp (f_lay f))) c) = value f (c ++ [q] ++ p).
Proof.
  intros R U P H Hc Hq Hp. destruct (new_static_inv _ _ _ _ P H) as (Hm & E1 & E2 & E3 & E4).
  rewrite static_entry_same; [|exact E1|rewrite E2, E3; reflexivity]. exact (proj2 (sub_pt_entry_value f _ m c q p R U Hm Hc Hq Hp)).
Qed.
Print Assumptions C86_sub_pt_entry.
Theorem C86_pixel_entry {A} (f : field A) t m c q p : ready f -> unpadded f -> 0 < it_rows t -> new_static f Pixel t = Ok m ->
  in_shape (l_comp (f_lay f)) c -> 0 <= q < l_nsub (f_lay f) -> in_shape (l_pix (f_lay f)) p ->
  exists e, static_entry t m f (off (l_pstr (f_lay f)) p) = Ok e /\
    rd e (off (running 1 (l_comp (f_lay f))) c + l_nbc (f_lay f) * q) = value f (c ++ [q] ++ p).
Proof.
  intros R U P H Hc Hq Hp. destruct (new_static_inv _ _ _ _ P H) as (Hm & E1 & E2 & E3 & E4).
  rewrite static_entry_same; [|exact E1|rewrite E2, E3; reflexivity]. exact (proj2 (pixel_entry_value f _ m c q p R U Hm Hc Hq Hp)).
Qed.
Print Assumptions C86_pixel_entry.

(** Combining every entry with a matrix that is not part of the field. *)
Theorem C86_update {A} (op : A -> A -> A) (f : field A) u t m val : ready f -> unpadded f -> 0 < it_rows t -> new_static f u t = Ok m -> entries_of f u < 2 ^ 64 ->
  Z.of_nat (length val) = it_rows t * it_cols t ->
  exists f' es, static_update op t m val f = Ok f' /\ ready f' /\ f_lay f' = f_lay f /\
    static_iterate t m f = Ok es /\ static_iterate t m f' = Ok (map (fun e => zip_with op e val) es) /\
    (forall j, buffer_scalars (f_lay f) <= j -> rd (f_vals f') j = rd (f_vals f) j).
Proof.
  intros R U P H Z L. destruct (new_static_inv _ _ _ _ P H) as (Hm & E1 & E2 & E3 & E4).
  destruct (map_update_spec op f u _ m (it_rows t) (it_cols t) val R U Hm (eq_sym E2) (eq_sym E3) L) as (f' & es & M1 & M2 & M3 & M4 & M5 & M6).
  assert (I : m_init m = true). { destruct (new_map_shape _ _ _ _ Hm) as (_ & _ & _ & _ & I & _). rewrite I. apply R. }
  pose proof (count_nonneg f u R). pose proof (map_size_ready f u _ m R U Hm) as Sz.
  assert (Sz' : map_size m f' = entries_of f u).
  { destruct (new_map_shape _ _ _ _ Hm) as (_ & Mu & _). unfold map_size, nb_entries, has_nsub in *. rewrite M3. rewrite <- Sz.
    assert (C1 : f_cur f = l_nsub (f_lay f) * l_nbuf (f_lay f)) by apply R.
    assert (C2 : f_cur f' = l_nsub (f_lay f') * l_nbuf (f_lay f')) by apply M2. rewrite M3 in C2. now rewrite C1, C2. }
  exists f', es. split; [rewrite (static_update_same op t m val f E1 E2 E3 I) by lia; exact M1|]. split; [exact M2|]. split; [exact M3|].
  split; [rewrite (proj1 (static_iterate_same t m f E1 ltac:(rewrite E2, E3; reflexivity) I ltac:(lia))); exact M4|].
  split; [rewrite (proj1 (static_iterate_same t m f' E1 ltac:(rewrite E2, E3; reflexivity) I ltac:(lia))); exact M5|exact M6].
Qed.
Print Assumptions C86_update.

(** The matrices that represent tensors have the entries of the tensor. *)
Theorem C86_tensor_shape rank dim : 0 <= rank ->
  match tensor_rows rank dim, tensor_cols rank dim with
  | Some r, Some c => r * c = dim ^ rank /\ In rank [0; 1; 2; 4]
  | None, None => ~ In rank [0; 1; 2; 4]
  | _, _ => False
  end.
Proof.
  intros H. unfold tensor_rows, tensor_cols.
  destruct (Z.eqb_spec rank 0) as [->|N0]; [split; [reflexivity|cbn; auto]|]. destruct (Z.eqb_spec rank 1) as [->|N1]; [split; [ring|cbn; auto]|].
  destruct (Z.eqb_spec rank 2) as [->|N2]; [split; [ring|cbn; auto]|]. destruct (Z.eqb_spec rank 4) as [->|N4]; [split; [ring|cbn; auto 6]|].
  cbn. intuition congruence.
Qed.
Print Assumptions C86_tensor_shape.

Example C86_case : let f := rf_field (the_field two_pixels "f") in ready f /\ unpadded f /\
  (exists m, new_static f Pixel (mk_iterate 2 1) = Ok m /\ static_iterate (mk_iterate 2 1) m f = Ok [[10; 20]; [30; 40]] /\
    exists f', static_update Z.add (mk_iterate 2 1) m [1; 2] f = Ok f' /\ f_vals f' = [11; 22; 31; 42]) /\
  new_static f SubPt (mk_iterate 2 1) = Err FieldMapError /\ tensor_rows 4 3 = Some 9.
Proof.
  cbn zeta. destruct two_pixels_ready as [R U].
  split; [exact R|]. split; [exact U|]. split; [|split; vm_compute; reflexivity].
  eexists. split; [vm_compute; reflexivity|]. split; [vm_compute; reflexivity|]. eexists. split; vm_compute; reflexivity.
Qed.

(** ** C87: maps of collections that are not initialised *)
Theorem C87_refused {A} (zero : A) c name r u t rows m ms : too_early zero c name r -> new_map (rf_field r) u rows = Ok m -> new_static (rf_field r) u t = Ok ms -> 0 < it_rows t ->
  map_iterate m (rf_field r) = Err FieldMapError /\ static_const_iterate t ms (rf_field r) = Err FieldMapError /\
  (forall op rows' cols' val, map_update op m rows' cols' val (rf_field r) = Err FieldMapError).
Proof.
  intros (R & I & _ & G) Hm Hs P. destruct (C17_uninitialised_hidden zero c name r R I G) as [_ H].
  destruct (new_static_inv _ _ _ _ P Hs) as (Hs' & _). destruct (H _ _ _ Hm) as [M _]. destruct (H _ _ _ Hs') as [M' _].
  unfold map_iterate, static_const_iterate, map_update. rewrite M, M'. cbn [negb]. split; [reflexivity|]. split; [reflexivity|].
  intros op a b v. destruct (negb _); reflexivity.
Qed.
Print Assumptions C87_refused.

(** The initialisation of the collection turns a static map into the one that
    would be created afterwards. *)
Theorem C87_usable_afterwards {A} (f0 f : field A) u t m0 : f_init f0 = false -> f_init f = true ->
  l_nbc (f_lay f) = l_nbc (f_lay f0) -> l_order (f_lay f) = l_order (f_lay f0) ->
  (u = Pixel -> l_nsub (f_lay f) = l_nsub (f_lay f0)) -> 0 < it_rows t -> new_static f0 u t = Ok m0 ->
  exists m, initialise_map m0 f = Ok m /\ new_static f u t = Ok m.
Proof.
  intros I0 I E1 E2 E3 P H. destruct (new_static_inv _ _ _ _ P H) as (Hm & S & _).
  destruct (early_map f0 f u _ m0 I0 I E1 E2 E3 Hm) as (_ & _ & m & M1 & M2). exists m. split; [exact M1|].
  unfold new_static. rewrite M2. cbn [bind]. replace (m_stride m) with (m_stride m0); [rewrite S, Z.eqb_refl; reflexivity|].
  unfold initialise_map in M1. rewrite I in M1. cbn in M1. apply Ok_inj in M1. now subst m.
Qed.
Print Assumptions C87_usable_afterwards.

Example C87_case : let c := run 0 fresh_local [OAddPixel 7; reg "f" "quad" 1] in too_early 0 c "f" (the_field c "f") /\
  exists m ms, new_map (rf_field (the_field c "f")) Pixel None = Ok m /\ new_static (rf_field (the_field c "f")) Pixel (mk_iterate 1 2) = Ok ms.
Proof.
  cbn zeta. split; [split; [apply fresh_local_reachable|split; [|split]; vm_compute; reflexivity]|]. do 2 eexists. split; vm_compute; reflexivity.
Qed.

(** ** C88: a map that is not const is not refused *)

(** Exactly: per-pixel iteration follows the missing data pointer, per-sub-point
    iteration does so once values were pushed, and visits nothing before. *)
Theorem C88_uninitialised_partial {A} (zero : A) c name r u t m : too_early zero c name r -> new_static (rf_field r) u t = Ok m -> 0 < it_rows t -> 0 < it_cols t ->
  0 <= f_cur (rf_field r) < 2 ^ 64 -> l_nsub (f_lay (rf_field r)) <> 0 ->
  static_iterate t m (rf_field r) = match u with Pixel => UB | SubPt => if f_cur (rf_field r) =? 0 then Ok [] else UB end.
Proof.
  intros (R & I & N & G) Hs P Pc Hc Hq. destruct (C17_uninitialised_hidden zero c name r R I G) as [_ H].
  destruct (new_static_inv _ _ _ _ P Hs) as (Hm & _). destruct (H _ _ _ Hm) as [_ Mp].
  destruct (new_map_shape _ _ _ _ Hm) as (_ & Mu & _).
  assert (Np : l_npix (f_lay (rf_field r)) = unknown).
  { apply RegistryProofs.reachable_inv in R. destruct R as [_ R]. unfold get_field in G. destruct (lookup name (c_fields c)) as [r0|] eqn:L; [|discriminate]. injection G as ->.
    destruct (R _ _ L) as [(_ & _ & _ & S4 & _) _]. congruence. }
  assert (St : 0 < it_stride t) by (unfold it_stride; now apply Z.mul_pos_pos).
  unfold static_iterate, unsigned_size, map_size, nb_entries. rewrite Mu, Np.
  assert (Ne : (if has_nsub (rf_field r) then l_nsub (f_lay (rf_field r)) * unknown else unknown) =? 0 = false).
  { apply Z.eqb_neq. unfold unknown. destruct (has_nsub (rf_field r)); lia. }
  rewrite Ne. destruct u.
  - destruct (Z.to_nat (unknown mod 2 ^ 64)) eqn:E; [|now apply static_loop_null].
    exfalso. assert (X : 0 < unknown mod 2 ^ 64) by reflexivity. lia.
  - rewrite Z.mod_small by exact Hc. destruct (Z.eqb_spec (f_cur (rf_field r)) 0) as [E|E]; [rewrite E; reflexivity|].
    destruct (Z.to_nat (f_cur (rf_field r))) eqn:E'; [lia|]. now apply static_loop_null.
Qed.
Print Assumptions C88_uninitialised_partial.

Theorem C88_not_refused_refuted : exists (c : coll Z) r t m m', too_early 0 c "f" r /\ new_static (rf_field r) Pixel t = Ok m /\ new_static (rf_field r) SubPt (mk_iterate 1 1) = Ok m' /\
  static_iterate t m (rf_field r) = UB /\ static_iterate (mk_iterate 1 1) m' (rf_field r) = Ok [].
Proof.
  set (c := run 0 fresh_local [OAddPixel 7; reg "f" "quad" 1]). exists c, (the_field c "f"), (mk_iterate 1 2).
  assert (T : too_early 0 c "f" (the_field c "f")) by (split; [apply fresh_local_reachable|split; [|split]; vm_compute; reflexivity]).
  destruct (new_static (rf_field (the_field c "f")) Pixel (mk_iterate 1 2)) as [m| |] eqn:E; [|vm_compute in E; discriminate|vm_compute in E; discriminate].
  destruct (new_static (rf_field (the_field c "f")) SubPt (mk_iterate 1 1)) as [m'| |] eqn:E'; [|vm_compute in E'; discriminate|vm_compute in E'; discriminate].
  exists m, m'. split; [exact T|]. split; [reflexivity|]. split; [reflexivity|]. split.
  - apply (C88_uninitialised_partial 0 c "f" _ Pixel _ m T E); cbn; try lia. 
  - rewrite (C88_uninitialised_partial 0 c "f" _ SubPt _ m' T E'); cbn; try lia; reflexivity.
Qed.
Print Assumptions C88_not_refused_refuted.

(** ** C89: combining every entry with an entry of the same map *)

(** Entries up to the chosen one get its old value, later ones the new value. *)
Theorem C89_self_partial {A} (op : A -> A -> A) (f : field A) u rows m src : ready f -> unpadded f -> new_map f u rows = Ok m -> 0 <= src < entries_of f u ->
  exists f' es es' e, self_update op m src f = Ok f' /\ f_lay f' = f_lay f /\ map_iterate m f = Ok es /\ map_iterate m f' = Ok es' /\
    nth_error es (Z.to_nat src) = Some e /\ length es' = length es /\
    (forall i x, nth_error es i = Some x ->
       nth_error es' i = Some (zip_with op x (if (i <=? Z.to_nat src)%nat then e else zip_with op e e))) /\
    (forall j, buffer_scalars (f_lay f) <= j -> rd (f_vals f') j = rd (f_vals f) j).
Proof.
  intros R U H Hs. destruct (self_update_spec m op u rows src f R U H Hs) as (f' & E & Al & Bl & Tl).
  exists f', (map (blk f u) (seq 0 (Z.to_nat (entries_of f u)))), (map (blk f' u) (seq 0 (Z.to_nat (entries_of f u)))), (blk f u (Z.to_nat src)).
  split; [exact E|]. split; [apply Al|]. split; [now apply (iterate_blk f f u rows m R U H (alike_refl f R))|]. split; [now apply (iterate_blk f f' u rows m R U H Al)|].
  split; [apply nth_blk; lia|]. split; [now rewrite !map_length|]. split.
  - intros i x Hx. assert (Hi : (i < Z.to_nat (entries_of f u))%nat). { assert (X : (i < length (map (blk f u) (seq 0 (Z.to_nat (entries_of f u)))))%nat) by (apply nth_error_Some; congruence). now rewrite map_length, seq_length in X. }
    rewrite nth_blk in * by exact Hi. injection Hx as <-. rewrite Bl by exact Hi. f_equal. f_equal.
    destruct (Nat.ltb_spec (Z.to_nat src) i), (Nat.leb_spec i (Z.to_nat src)); try lia; reflexivity.
  - intros j Hj. assert (0 <= buffer_scalars (f_lay f)) by (rewrite <- (count_per f u R U); pose proof (per_pos f u R); pose proof (count_nonneg f u R); nia).
    unfold rd. destruct (Z.ltb_spec j 0); [reflexivity|].
    assert (X : forall v : list A, nth_error v (Z.to_nat j) = nth_error (skipn (Z.to_nat (buffer_scalars (f_lay f))) v) (Z.to_nat j - Z.to_nat (buffer_scalars (f_lay f)))).
    { intros v. assert (Y : (Z.to_nat (buffer_scalars (f_lay f)) <= Z.to_nat j)%nat) by lia. revert Y. generalize (Z.to_nat (buffer_scalars (f_lay f))) (Z.to_nat j).
      clear. intros n. revert v. induction n as [|n IH]; intros v k Hk; [now rewrite Nat.sub_0_r|]. destruct v as [|x v]; [assert (Zn : forall i, nth_error (@nil A) i = None) by (now intros []); cbn [skipn]; now rewrite !Zn|].
      destruct k as [|k]; [lia|]. cbn. apply IH. lia. }
    rewrite (X (f_vals f')), (X (f_vals f)), Tl. reflexivity.
Qed.
Print Assumptions C89_self_partial.

(** Assigning one of its entries to all entries is fine. *)
Theorem C89_assign_partial {A} (f : field A) u rows m src : ready f -> unpadded f -> new_map f u rows = Ok m -> 0 <= src < entries_of f u ->
  exists f' es e, self_update (fun _ y => y) m src f = Ok f' /\ map_iterate m f = Ok es /\ nth_error es (Z.to_nat src) = Some e /\ map_iterate m f' = Ok (map (fun _ => e) es).
Proof.
  intros R U H Hs. destruct (self_update_spec m (fun _ y => y) u rows src f R U H Hs) as (f' & E & Al & Bl & Tl).
  exists f', (map (blk f u) (seq 0 (Z.to_nat (entries_of f u)))), (blk f u (Z.to_nat src)).
  split; [exact E|]. split; [now apply (iterate_blk f f u rows m R U H (alike_refl f R))|]. split; [apply nth_blk; lia|].
  rewrite (iterate_blk f f' u rows m R U H Al), map_map. f_equal. apply map_ext_in. intros k Hk. apply in_seq in Hk. rewrite Bl by lia.
  assert (Z1 : forall a b : list A, length a = length b -> zip_with (fun _ y => y) a b = b).
  { induction a as [|x a IH]; intros [|y b] L; cbn in *; try discriminate; [reflexivity|]. f_equal. apply IH. congruence. }
  assert (Lk : length (blk f u k) = Z.to_nat (scalars_per_entry f u)) by (apply blk_length; auto; lia).
  assert (Ls : length (blk f u (Z.to_nat src)) = Z.to_nat (scalars_per_entry f u)) by (apply blk_length; auto; lia).
  rewrite (Z1 (blk f u (Z.to_nat src))) by reflexivity. destruct (_ <? _)%nat; apply Z1; congruence.
Qed.
Print Assumptions C89_assign_partial.

(** 10, 20, 30, 40 plus the entry 20 gives 30, 40, 70, 80. *)
Theorem C89_self_combination_refuted : exists (f f' : field Z) m, ready f /\ unpadded f /\ new_map f SubPt None = Ok m /\
  map_iterate m f = Ok [[10]; [20]; [30]; [40]] /\ map_entry m f 1 = Ok [20] /\ self_update Z.add m 1 f = Ok f' /\
  map_iterate m f' = Ok [[30]; [40]; [70]; [80]] /\
  exists f2, map_update Z.add m 1 1 [20] f = Ok f2 /\ map_iterate m f2 = Ok [[30]; [40]; [50]; [60]].
Proof.
  destruct two_pixels_ready as [R U].
  exists (rf_field (the_field two_pixels "f")). do 2 eexists. split; [exact R|]. split; [exact U|]. do 5 (split; [vm_compute; reflexivity|]).
  eexists. split; vm_compute; reflexivity.
Qed.
Print Assumptions C89_self_combination_refuted.

(** ** C90: averages over statically sized maps *)

(** The sum times the reciprocal of the number of entries. *)
Theorem C90_mean_partial {A} (zero : A) (add : A -> A -> A) scale (f : field A) u t m : ready f -> unpadded f -> 0 < it_rows t -> new_static f u t = Ok m -> entries_of f u < 2 ^ 64 ->
  exists s, static_mean zero add scale t m f = Ok (map (fun x => scale x (entries_of f u)) s) /\ Z.of_nat (length s) = it_rows t * it_cols t /\
  forall k, 0 <= k < it_rows t * it_cols t -> nth (Z.to_nat k) s zero =
    fold_left add (map (fun i => nth (Z.to_nat (Z.of_nat i * (it_rows t * it_cols t) + k)) (f_vals f) zero) (seq 0 (Z.to_nat (entries_of f u)))) zero.
Proof.
  intros R U P H Z. destruct (static_mean_same zero add scale t f u m R U P H Z) as (s & E1 & E2).
  destruct (new_static_inv _ _ _ _ P H) as (Hm & S1 & S2 & S3 & _). destruct (map_sum_spec zero add f u _ m R U Hm) as (s' & E1' & L & V).
  rewrite E1 in E1'. apply Ok_inj in E1'. subst s'. exists s. split; [exact E2|]. rewrite S1, S2, S3 in *. split; [exact L|exact V].
Qed.
Print Assumptions C90_mean_partial.

(** Without entries the static version multiplies by the reciprocal of zero; the
    dynamic version returns zeros.  [None] is not-a-number. *)
Definition scale_or_nan (x : option Z) (n : Z) : option Z := if n =? 0 then None else option_map (fun y => Z.quot y n) x.
Definition add_or_nan (x y : option Z) : option Z := match x, y with Some a, Some b => Some (a + b) | _, _ => None end.
Definition bare : coll (option Z) := match new_coll false ColMajor [] with Ok c => c | _ => mk_coll false ColMajor [] false 0 0 [] [] [] [] end.
Definition no_pixels : coll (option Z) := run (Some 0) bare [ORegister "f" Real (inl 2) "pixel" no_unit false; OInitLocal].
Theorem C90_empty_refuted : exists r m md, get_field no_pixels "f" = Ok r /\ reachable (Some 0) no_pixels /\ c_init no_pixels = true /\ entries_of (rf_field r) Pixel = 0 /\
  new_static (rf_field r) Pixel (mk_iterate 2 1) = Ok m /\ new_map (rf_field r) Pixel None = Ok md /\
  static_mean (Some 0) add_or_nan scale_or_nan (mk_iterate 2 1) m (rf_field r) = Ok [None; None] /\
  map_mean (Some 0) add_or_nan scale_or_nan md (rf_field r) = Ok [Some 0; Some 0].
Proof.
  do 3 eexists. split; [vm_compute; reflexivity|]. split.
  { exists false, ColMajor, [], bare, [ORegister "f" Real (inl 2) "pixel" no_unit false; OInitLocal]. split; [vm_compute|]; reflexivity. }
  repeat (split; [vm_compute; reflexivity|]). vm_compute; reflexivity.
Qed.
Print Assumptions C90_empty_refuted.

(** ** C91: enumeration *)

(** Statically sized maps. *)
Theorem C91_static_sub_pt {A} (zero : A) c name r t m : in_use zero c name r -> 0 < it_rows t -> new_static (rf_field r) SubPt t = Ok m -> entries_of (rf_field r) SubPt < 2 ^ 64 ->
  let f := rf_field r in let ns := l_nsub (f_lay f) in
  exists l, static_enumerate c (rf_tag r) t m f = Ok l /\ Z.of_nat (length l) = ns * c_npix c /\
    forall comp q p, in_shape (l_comp (f_lay f)) comp -> 0 <= q < ns -> in_shape (c_pix c) p ->
      exists pix e, nth_error (c_index c) (Z.to_nat (off (c_pstr c) p)) = Some pix /\
        nth_error l (Z.to_nat (q + ns * off (c_pstr c) p)) = Some (pix * ns + q, e) /\
        rd e (off (running 1 (l_comp (f_lay f))) comp) = value f (comp ++ [q] ++ p).
Proof.
  intros (R & I & G & B & N & Hf) P H Z. cbn zeta. pose proof (registered_placed zero c name r R I G B N Hf) as Pl.
  pose proof (C17_storage zero true c name r R I Hf) as S. cbn zeta in S. destruct S as (_ & _ & _ & _ & _ & _ & (_ & S2 & S3 & S4 & _) & _).
  destruct (new_static_inv _ _ _ _ P H) as (Hm & _). eexists. split; [now apply static_enumerate_ok with (u := SubPt)|].
  split; [rewrite (pairs_length c (rf_tag r) _ SubPt Pl); unfold entries_of; now rewrite S4|].
  intros comp q p Hc Hq Hp. rewrite <- S3. rewrite <- S2 in Hp. now apply (sub_pt_pairs c (rf_tag r) _ _ m comp q p Pl Hm).
Qed.
Print Assumptions C91_static_sub_pt.
Theorem C91_static_pixel {A} (zero : A) c name r t m : in_use zero c name r -> 0 < it_rows t -> new_static (rf_field r) Pixel t = Ok m -> entries_of (rf_field r) Pixel < 2 ^ 64 ->
  let f := rf_field r in
  exists l, static_enumerate c (rf_tag r) t m f = Ok l /\ Z.of_nat (length l) = c_npix c /\
    forall comp q p, in_shape (l_comp (f_lay f)) comp -> 0 <= q < l_nsub (f_lay f) -> in_shape (c_pix c) p ->
      exists pix e, nth_error (c_index c) (Z.to_nat (off (c_pstr c) p)) = Some pix /\
        nth_error l (Z.to_nat (off (c_pstr c) p)) = Some (pix, e) /\
        rd e (off (running 1 (l_comp (f_lay f))) comp + l_nbc (f_lay f) * q) = value f (comp ++ [q] ++ p).
Proof.
  intros (R & I & G & B & N & Hf) P H Z. cbn zeta. pose proof (registered_placed zero c name r R I G B N Hf) as Pl.
  pose proof (C17_storage zero true c name r R I Hf) as S. cbn zeta in S. destruct S as (_ & _ & _ & _ & _ & _ & (_ & S2 & S3 & S4 & _) & _).
  destruct (new_static_inv _ _ _ _ P H) as (Hm & _). eexists. split; [now apply static_enumerate_ok with (u := Pixel)|].
  split; [rewrite (pairs_length c (rf_tag r) _ Pixel Pl); unfold entries_of; now rewrite S4|].
  intros comp q p Hc Hq Hp. rewrite <- S3. rewrite <- S2 in Hp. now apply (pixel_pairs c (rf_tag r) _ _ m comp q p Pl Hm).
Qed.
Print Assumptions C91_static_pixel.

(** Dynamic maps: [enumerate_indices] for maps over sub-points,
    [enumerate_pixel_indices_fast] for maps over pixels. *)
Theorem C91_dynamic_sub_pt {A} (zero : A) c name r rows m : in_use zero c name r -> new_map (rf_field r) SubPt rows = Ok m ->
  let f := rf_field r in let ns := l_nsub (f_lay f) in
  exists l, enumerate_indices c (rf_tag r) m f = Ok l /\ Z.of_nat (length l) = ns * c_npix c /\
    forall comp q p, in_shape (l_comp (f_lay f)) comp -> 0 <= q < ns -> in_shape (c_pix c) p ->
      exists pix e, nth_error (c_index c) (Z.to_nat (off (c_pstr c) p)) = Some pix /\
        nth_error l (Z.to_nat (q + ns * off (c_pstr c) p)) = Some (pix * ns + q, e) /\
        rd e (off (running 1 (l_comp (f_lay f))) comp) = value f (comp ++ [q] ++ p).
Proof.
  intros (R & I & G & B & N & Hf) Hm. cbn zeta. pose proof (registered_placed zero c name r R I G B N Hf) as Pl.
  pose proof (C17_storage zero true c name r R I Hf) as S. cbn zeta in S. destruct S as (_ & _ & _ & _ & _ & _ & (_ & S2 & S3 & S4 & _) & _).
  eexists. split; [now apply dynamic_enumerate_ok with (rows := rows)|].
  split; [rewrite (pairs_length c (rf_tag r) _ SubPt Pl); unfold entries_of; now rewrite S4|].
  intros comp q p Hc Hq Hp. rewrite <- S3. rewrite <- S2 in Hp. now apply (sub_pt_pairs c (rf_tag r) _ _ m comp q p Pl Hm).
Qed.
Print Assumptions C91_dynamic_sub_pt.
Theorem C91_dynamic_pixel {A} (zero : A) c name r rows m : in_use zero c name r -> new_map (rf_field r) Pixel rows = Ok m ->
  let f := rf_field r in
  exists l, enumerate_pixels_fast c m f = Ok l /\ Z.of_nat (length l) = c_npix c /\
    forall comp q p, in_shape (l_comp (f_lay f)) comp -> 0 <= q < l_nsub (f_lay f) -> in_shape (c_pix c) p ->
      exists pix e, nth_error (c_index c) (Z.to_nat (off (c_pstr c) p)) = Some pix /\
        nth_error l (Z.to_nat (off (c_pstr c) p)) = Some (pix, e) /\
        rd e (off (running 1 (l_comp (f_lay f))) comp + l_nbc (f_lay f) * q) = value f (comp ++ [q] ++ p).
Proof.
  intros (R & I & G & B & N & Hf) Hm. cbn zeta. pose proof (registered_placed zero c name r R I G B N Hf) as Pl.
  pose proof (C17_storage zero true c name r R I Hf) as S. cbn zeta in S. destruct S as (_ & _ & _ & _ & _ & _ & (_ & S2 & S3 & S4 & _) & _).
  eexists. split; [now apply fast_enumerate_ok with (tag := rf_tag r) (rows := rows)|].
  split; [rewrite (pairs_length c (rf_tag r) _ Pixel Pl); unfold entries_of; now rewrite S4|].
  intros comp q p Hc Hq Hp. rewrite <- S3. rewrite <- S2 in Hp. now apply (pixel_pairs c (rf_tag r) _ _ m comp q p Pl Hm).
Qed.
Print Assumptions C91_dynamic_pixel.
Theorem C91_fast_needs_pixels {A} c m (f : field A) : m_unit m = SubPt -> enumerate_pixels_fast c m f = Err FieldMapError.
Proof. intros H. unfold enumerate_pixels_fast. now rewrite H. Qed.
Print Assumptions C91_fast_needs_pixels.

Example C91_case : let r := the_field two_pixels "f" in let f := rf_field r in in_use 0 two_pixels "f" r /\
  (exists m, new_static f Pixel (mk_iterate 1 2) = Ok m /\ static_enumerate two_pixels (rf_tag r) (mk_iterate 1 2) m f = Ok [(7, [10; 20]); (4, [30; 40])]) /\
  (exists m, new_static f SubPt (mk_iterate 1 1) = Ok m /\ static_enumerate two_pixels (rf_tag r) (mk_iterate 1 1) m f = Ok [(14, [10]); (15, [20]); (8, [30]); (9, [40])]) /\
  (exists m, new_map f SubPt None = Ok m /\ enumerate_indices two_pixels (rf_tag r) m f = Ok [(14, [10]); (15, [20]); (8, [30]); (9, [40])]) /\
  (exists m, new_map f Pixel None = Ok m /\ enumerate_pixels_fast two_pixels m f = Ok [(7, [10; 20]); (4, [30; 40])]).
Proof. cbn zeta. split; [exact two_pixels_in_use|]. split; [|split; [|split]]; eexists; (split; [vm_compute; reflexivity|vm_compute; reflexivity]). Qed.

(** ** C92: [enumerate_indices] of a dynamic map over pixels *)

(** It pairs the entries of the pixels with the indices of sub-points. *)
Theorem C92_pixel_map_refuted : exists (c : coll Z) r m l, in_use 0 c "f" r /\ new_map (rf_field r) Pixel None = Ok m /\
  enumerate_indices c (rf_tag r) m (rf_field r) = Ok l /\ l = [(14, [10; 20]); (15, [30; 40])] /\ c_index c = [7; 4].
Proof.
  exists two_pixels, (the_field two_pixels "f"). do 2 eexists. split; [exact two_pixels_in_use|]. split; [vm_compute; reflexivity|]. split; [vm_compute; reflexivity|]. split; vm_compute; reflexivity.
Qed.
Print Assumptions C92_pixel_map_refuted.

(** Right when there is one sub-point per pixel. *)
Theorem C92_single_point_partial {A} (zero : A) c name r rows m : in_use zero c name r -> l_nsub (f_lay (rf_field r)) = 1 -> new_map (rf_field r) Pixel rows = Ok m ->
  enumerate_indices c (rf_tag r) m (rf_field r) = enumerate_pixels_fast c m (rf_field r).
Proof.
  intros (R & I & G & B & N & Hf) One Hm. pose proof (registered_placed zero c name r R I G B N Hf) as Pl.
  unfold enumerate_indices, enumerate_pixels_fast. rewrite (sub_pt_list c _ _ Pl), One. cbn [bind].
  destruct (new_map_shape _ _ _ _ Hm) as (_ & Mu & _). rewrite Mu. change (zrange (Z.to_nat 1)) with [0]. cbn [map].
  assert (E : forall ix : list Z, flat_map (fun p => [p * 1 + 0]) ix = ix).
  { induction ix as [|x ix IH]; [reflexivity|]. cbn [flat_map app]. rewrite IH. f_equal. lia. }
  rewrite E. reflexivity.
Qed.
Print Assumptions C92_single_point_partial.
