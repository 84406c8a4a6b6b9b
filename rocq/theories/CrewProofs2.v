(** Steps of parallel programs that register collections; processes that stay
    together. *)
From Coq Require Import String.
From Verif Require Import Base GridModel GridProofs GridProofs2 StridedModel LayoutModel LayoutProofs CommModel.
From Verif Require Import NetCDFModel NetCDFProofs4 DimModel DimProofs2 CrewModel CrewSpec CrewProofs.
Local Open Scope Z_scope.
Local Open Scope list_scope.

(** ** Functions of the object on two processes *)

Definition alike_pixels (a b : Z) (p q : option (nfield * list string)) : Prop :=
  match p, q with
  | None, None => True
  | Some (f, l), Some (g, m) => alike_field f g /\ l = m /\ l_npix (nf_lay f) = a /\ l_npix (nf_lay g) = b
  | _, _ => False
  end.
Definition sobj (a b : Z) (o o' : fobj) : Prop :=
  o_dims o = o_dims o' /\ o_grid o = o_grid o' /\ o_vars o = o_vars o' /\ o_subs o = o_subs o' /\ alike_pixels a b (o_pixels o) (o_pixels o').
Definition mrel {X} (a b : Z) (A : X -> X -> Prop) (f g : M fobj X) : Prop :=
  forall o o', sobj a b o o' -> sobj a b (fst (f o)) (fst (g o')) /\ rres A (snd (f o)) (snd (g o')).
Lemma mrel_ret {X} a b (A : X -> X -> Prop) x y : A x y -> mrel a b A (mret x) (mret y).
Proof. intros H o o' S. split; [exact S|exact H]. Qed.
Lemma mrel_lift {X} a b (A : X -> X -> Prop) x y : rres A x y -> mrel a b A (mlift x) (mlift y).
Proof. intros H o o' S. split; [exact S|exact H]. Qed.
Lemma mrel_bind {X Y} a b (A : X -> X -> Prop) (B : Y -> Y -> Prop) f g k l :
  mrel a b A f g -> (forall x y, A x y -> mrel a b B (k x) (l y)) -> mrel a b B (mbind f k) (mbind g l).
Proof.
  intros F K o o' S. specialize (F o o' S). unfold mbind. destruct (f o) as [o1 r1], (g o') as [o2 r2]. cbn [fst snd] in F. destruct F as [S1 R].
  destruct r1, r2; cbn [rres] in R; try contradiction.
  - exact (K _ _ R o1 o2 S1).
  - subst. split; [exact S1|reflexivity].
  - split; [exact S1|exact I].
Qed.
Lemma mrel_each {X Y} a b (A : Y -> Y -> Prop) (P : X -> X -> Prop) (f g : X -> M fobj Y) l m :
  Forall2 P l m -> (forall x y, P x y -> mrel a b A (f x) (g y)) -> mrel a b (Forall2 A) (meach f l) (meach g m).
Proof.
  intros F H. induction F as [|x y l m Pxy F IH]; cbn [meach]; [apply mrel_ret; constructor|].
  eapply mrel_bind; [now apply H|]. intros u v UV. eapply mrel_bind; [exact IH|]. intros us vs US. apply mrel_ret. now constructor.
Qed.
Lemma Forall2_eq {X} (l m : list X) : Forall2 eq l m -> l = m.
Proof. induction 1; congruence. Qed.
Lemma Forall2_refl {X} (P : X -> X -> Prop) l : (forall x, P x x) -> Forall2 P l l.
Proof. intros H. induction l; constructor; auto. Qed.
Lemma rres_same {X} (r s : res X) : rres eq r s <-> r = s.
Proof. split; [apply rres_eq_iff|intros ->; apply rres_eq]. Qed.
Lemma mrel_weak {X} a b (A B : X -> X -> Prop) f g : (forall x y, A x y -> B x y) -> mrel a b A f g -> mrel a b B f g.
Proof. intros H F o o' S. destruct (F o o' S) as [S1 R]. split; [exact S1|]. exact (rres_weak _ _ _ _ H R). Qed.
Lemma each_same {X Y} a b (f : X -> M fobj Y) l : (forall x, mrel a b eq (f x) (f x)) -> mrel a b eq (meach f l) (meach f l).
Proof. intros H. eapply mrel_weak; [apply Forall2_eq|]. eapply mrel_each; [apply (Forall2_refl eq); reflexivity|]. intros x y ->. apply H. Qed.

Lemma add_dim_same a b d : mrel a b eq (add_dim d) (add_dim d).
Proof.
  intros o o' (E1 & E2 & E3 & E4 & E5). unfold add_dim. rewrite E1. destruct (position _ _); cbn [fst snd]; (split; [|reflexivity]); repeat split; assumption.
Qed.
Lemma find_dim_same a b d : mrel a b eq (find_dim d) (find_dim d).
Proof. intros o o' S. pose proof S as (E1 & _). unfold find_dim. rewrite E1. destruct (position _ _); cbn [fst snd]; (split; [exact S|reflexivity]). Qed.
Lemma grid_loop_same a b dom : forall names i, mrel a b eq (grid_loop names i dom) (grid_loop names i dom).
Proof.
  induction dom as [|n dom IH]; intros names i; [destruct names; exact (mrel_ret a b eq [] [] eq_refl)|].
  destruct names as [|name names]; [exact (mrel_lift a b eq UB UB I)|].
  intros o o' S. pose proof S as (E1 & E2 & E3 & E4 & E5). cbn [grid_loop]. rewrite E2. destruct (nth_error (o_grid o') i) as [old|]; [|split; [exact S|exact I]].
  destruct (_ && _); [split; [exact S|reflexivity]|].
  apply (mrel_bind a b eq eq (add_dim (mk_ncdim (compute_dim_name name "") n)) (add_dim (mk_ncdim (compute_dim_name name "") n))); [apply add_dim_same| |].
  - intros x ? <-. eapply mrel_bind; [apply IH|]. intros y ? <-. now apply mrel_ret.
  - repeat split; assumption.
Qed.
Lemma dims_global_alike f g name : alike_field f g -> add_dims_global name f = add_dims_global name g.
Proof. intros (E1 & E2 & E3 & E4 & E5 & _). unfold add_dims_global, subpt_dims. now rewrite E1, E2, E3, E4, E5. Qed.
Lemma dims_local_alike total f g name : alike_field f g -> add_field_dims_local total name f = add_field_dims_local total name g.
Proof. intros (E1 & E2 & E3 & E4 & E5 & _). unfold add_field_dims_local, subpt_dims. now rewrite E1, E3, E4, E5. Qed.
Lemma add_dims_global_same a b name f : mrel a b eq (add_dims_global name f) (add_dims_global name f).
Proof.
  unfold add_dims_global. eapply mrel_bind; [apply each_same; intros; apply add_dim_same|]. intros x ? <-.
  eapply mrel_bind; [apply grid_loop_same|]. intros y ? <-. now apply mrel_ret.
Qed.
Lemma add_var_alike a b r s hidden refs : alike_var r s -> mrel a b eq (add_var r hidden refs) (add_var s hidden refs).
Proof.
  intros (N & H & _) o o' (E1 & E2 & E3 & E4 & E5). unfold add_var, dims_at. rewrite N, H, E1, E3. cbn [fst snd]. split; [|reflexivity]. repeat split; assumption.
Qed.
Lemma add_subs_alike a b r s : alike_var r s -> mrel a b eq (add_subs r) (add_subs s).
Proof. intros (_ & _ & E & _) o o' (E1 & E2 & E3 & E4 & E5). unfold add_subs. cbn [fst snd]. split; [|reflexivity]. rewrite E, E4. repeat split; assumption. Qed.
Lemma global_var_alike a b hn r s : alike_var r s -> mrel a b eq (register_global_var hn r) (register_global_var hn s).
Proof.
  intros A. pose proof A as (N & H & S & F). intros o o' SO. pose proof SO as (E1 & E2 & E3 & E4 & E5). unfold register_global_var, get_names. rewrite N, H, E3, E4.
  destruct (has (rv_name s) _); [split; [exact SO|reflexivity]|].
  destruct (rv_hist s) as [nb|].
  - eapply (mrel_bind a b eq eq); [apply find_dim_same| |exact SO]. intros x ? <-.
    eapply mrel_bind; [apply add_dim_same|]. intros y ? <-.
    rewrite (dims_global_alike _ _ _ F). eapply mrel_bind; [apply add_dims_global_same|]. intros z ? <-.
    eapply mrel_bind; [apply add_var_alike; exact A|]. intros v ? <-. eapply mrel_bind; [apply add_subs_alike; exact A|]. intros _ _ _.
    apply mrel_lift. apply rres_same. now apply check_global_alike.
  - destruct (has (rv_name s) (o_subs o')); [split; [exact SO|reflexivity]|].
    eapply (mrel_bind a b eq eq); [apply each_same; intros; apply find_dim_same| |exact SO]. intros x ? <-.
    rewrite (dims_global_alike _ _ _ F). eapply mrel_bind; [apply add_dims_global_same|]. intros z ? <-.
    eapply mrel_bind; [apply add_var_alike; exact A|]. intros v ? <-. apply mrel_lift. apply rres_same. now apply check_global_alike.
Qed.
Lemma pixels_alike g g' p q : pixels_field g = Ok p -> pixels_field g' = Ok q -> gc_dom g = gc_dom g' -> length (gc_sub g) = length (gc_sub g') -> alike_field p q.
Proof.
  unfold pixels_field, global_layout_order, global_layout, pixel_strides_for, get_col_major_strides, pixels_strided, pixels_strided_with. intros P Q D L.
  assert (F : forall x y, (let! l := (let! s := (if dyn_dim_ok (gc_sub x) then Ok (col_major_strides (gc_sub x)) else Err RuntimeError) in
      let! p := (let! b := is_buffer_contiguous_ax (gc_sub x) s (compute_axes_order (gc_sub x) s) in
                 if negb (length (default_loc (gc_sub x) (gc_loc x)) =? length (gc_sub x))%nat then Err RuntimeError
                 else if negb (length s =? length (gc_sub x))%nat then Err RuntimeError
                 else Ok (mk_pixels (gc_sub x) (default_loc (gc_sub x) (gc_loc x)) s (compute_axes_order (gc_sub x) s) b)) in
      let! nbuf := get_buffer_size (gc_sub x) s in Ok (layout_of_shape [1] 1 ColMajor (px_nb p) (px_strides p) (get_size (gc_sub x)) nbuf)) in
      Ok (mk_nfield "" "pixel" l (gc_dom x) (gc_loc x))) = Ok y ->
    nf_tag y = "pixel"%string /\ nf_dom y = gc_dom x /\ l_comp (nf_lay y) = [1] /\ l_nbc (nf_lay y) = 1 /\ l_nsub (nf_lay y) = 1 /\
    l_order (nf_lay y) = ColMajor /\ length (l_pstr (nf_lay y)) = length (gc_sub x)).
  { intros x y E. destruct (dyn_dim_ok (gc_sub x)); [|discriminate]. cbn [bind] in E.
    apply bind_ok in E. destruct E as (l & E & EL). apply bind_ok in E. destruct E as (px & EP & E). apply bind_ok in E. destruct E as (nb & _ & E).
    apply bind_ok in EP. destruct EP as (bo & _ & EP).
    destruct (Nat.eqb _ _) in EP; [|discriminate]. cbn [negb] in EP. destruct (Nat.eqb _ _) in EP; [|discriminate]. cbn [negb] in EP.
    apply Ok_inj in EP. apply Ok_inj in E. subst px l. rename EL into E. apply Ok_inj in E. subst y. cbn. repeat split. apply col_major_strides_length. }
  destruct (F g p P) as (A1 & A2 & A3 & A4 & A5 & A6 & A7). destruct (F g' q Q) as (B1 & B2 & B3 & B4 & B5 & B6 & B7).
  repeat split; congruence.
Qed.
Lemma initialise_alike a b g g' p q : pixels_field g = Ok p -> pixels_field g' = Ok q -> l_npix (nf_lay p) = a -> l_npix (nf_lay q) = b ->
  gc_dom g = gc_dom g' -> length (gc_sub g) = length (gc_sub g') -> mrel a b eq (initialise_pixels g) (initialise_pixels g').
Proof.
  intros P Q Np Nq D L o o' S. pose proof S as (E1 & E2 & E3 & E4 & E5). unfold initialise_pixels.
  destruct (o_pixels o) as [[f l]|], (o_pixels o') as [[f' l']|]; cbn [alike_pixels] in E5; try contradiction; [split; [exact S|reflexivity]|].
  rewrite P, Q. cbn. split; [|reflexivity]. repeat split; try assumption; apply (pixels_alike g g' p q); assumption.
Qed.
Lemma hidden_names_alike a b o o' : sobj a b o o' -> hidden_names o = hidden_names o'.
Proof.
  intros (_ & _ & _ & _ & E). unfold hidden_names. destruct (o_pixels o) as [[f l]|], (o_pixels o') as [[f' l']|]; cbn [alike_pixels] in E; try contradiction; [apply E|reflexivity].
Qed.
Lemma global_coll_alike a b g g' vars vars' p q : pixels_field g = Ok p -> pixels_field g' = Ok q -> l_npix (nf_lay p) = a -> l_npix (nf_lay q) = b ->
  gc_dom g = gc_dom g' -> length (gc_sub g) = length (gc_sub g') -> Forall2 alike_var vars vars' ->
  mrel a b eq (register_global_coll g vars) (register_global_coll g' vars').
Proof.
  intros P Q Np Nq D L F o o' S. unfold register_global_coll. rewrite (hidden_names_alike a b o o' S).
  eapply (mrel_bind a b (Forall2 eq) eq); [eapply mrel_each; [exact F|intros; now apply global_var_alike]| |exact S].
  intros _ _ _. now apply (initialise_alike a b g g' p q).
Qed.
Lemma register_pixels_alike a b n : mrel a b (fun p q => alike_field p q /\ l_npix (nf_lay p) = a /\ l_npix (nf_lay q) = b) (register_pixels n) (register_pixels n).
Proof.
  intros o o' S. pose proof S as (E1 & E2 & E3 & E4 & E5). unfold register_pixels.
  destruct (o_pixels o) as [[f l]|], (o_pixels o') as [[f' l']|]; cbn [alike_pixels] in E5; try contradiction; [|split; [exact S|reflexivity]].
  destruct E5 as (A & <- & Na & Nb). destruct (has n l); [split; [exact S|reflexivity]|]. cbn [fst snd set_pixels].
  split; [repeat split; try assumption; apply A|]. cbn. repeat split; try assumption; apply A.
Qed.

(** ** Steps *)

Lemma calling_inj xs ys : map calling xs = map calling ys -> xs = ys.
Proof.
  revert ys. induction xs as [|[c h k] xs IH]; intros [|[c' h' k'] ys] E; cbn in E; try discriminate; [reflexivity|].
  injection E as -> -> -> E. f_equal. now apply IH.
Qed.
Lemma pstep_inv c c' : pstep c c' -> exists xs, xs <> [] /\ c = map calling xs /\ c' = returned_from (map k_call xs) 0 xs.
Proof. intros S. destruct S as [x xs F]. exists (x :: xs). split; [discriminate|]. split; reflexivity. Qed.
Lemma same_call_refl c : same_call c c.
Proof. destruct c; cbn; auto. Qed.
Lemma returned_map all xs k (f : nat -> caller) : xs = map f (seq k (length xs)) -> returned_from all k xs = map (fun i => returned all i (f i)) (seq k (length xs)).
Proof.
  revert k. induction xs as [|x xs IH]; intros k E; [reflexivity|]. cbn [length seq map returned_from] in *. injection E as E1 E2. f_equal; [now rewrite E1|]. now apply IH.
Qed.
Lemma always_call Q n (c : nat -> ccall) (h : nat -> head) (k : nat -> option Z -> head -> prog) : (0 < n)%nat ->
  (forall i j, (i < n)%nat -> (j < n)%nat -> same_call (c i) (c j)) ->
  always Q (map (fun i => let a := answer (map c (seq 0 n)) i (c i) (h i) in k i (fst a) (snd a)) (seq 0 n)) ->
  always Q (map (fun i => Call (c i) (h i) (k i)) (seq 0 n)).
Proof.
  intros N S A. set (f := fun i => mk_caller (c i) (h i) (k i)).
  assert (E : map (fun i => Call (c i) (h i) (k i)) (seq 0 n) = map calling (map f (seq 0 n))) by (rewrite map_map; reflexivity).
  assert (R : returned_from (map k_call (map f (seq 0 n))) 0 (map f (seq 0 n)) =
              map (fun i => let a := answer (map c (seq 0 n)) i (c i) (h i) in k i (fst a) (snd a)) (seq 0 n)).
  { rewrite (returned_map _ (map f (seq 0 n)) 0 f) by now rewrite map_length, seq_length. rewrite map_length, seq_length, map_map. reflexivity. }
  rewrite E. apply later.
  - exists (returned_from (map k_call (map f (seq 0 n))) 0 (map f (seq 0 n))). destruct n as [|m]; [lia|]. cbn [seq map].
    apply (pstep_call (f 0%nat) (map f (seq 1 m))). apply Forall_forall. intros y I. apply in_map_iff in I. destruct I as (j & <- & I). apply in_seq in I. cbn. apply S; lia.
  - intros c' P. apply pstep_inv in P. destruct P as (xs & _ & EX & ->). apply calling_inj in EX. rewrite <- EX, R. exact A.
Qed.
