(** Registration with dimensions that are there already. *)
From Coq Require Import String Ascii.
From Verif Require Import Base CIntModel GridModel LayoutModel LayoutProofs NetCDFModel NetCDFSpec NetCDFProofs NetCDFProofs2 NetCDFProofs3 NetCDFProofs4 NetCDFProofs7.
From Verif Require Import DimModel DimSpec DimProofs.
Local Open Scope Z_scope.
Local Open Scope list_scope.

Definition runs {S X} (m : M S X) (o : S) (Q : X -> S -> Prop) : Prop := exists x o', m o = (o', Ok x) /\ Q x o'.
Lemma runs_bind {S X Y} (a : M S X) (k : X -> M S Y) o Q R :
  runs a o Q -> (forall x o', Q x o' -> runs (k x) o' R) -> runs (mbind a k) o R.
Proof. intros (x & o' & E & H) K. destruct (K x o' H) as (y & o2 & E2 & H2). exists y, o2. split; [|exact H2]. unfold mbind. now rewrite E. Qed.
Lemma runs_ret {S X} (x : X) (o : S) (Q : X -> S -> Prop) : Q x o -> runs (mret x) o Q.
Proof. intros H. exists x, o. now split. Qed.
Lemma runs_weak {S X} (m : M S X) o (Q R : X -> S -> Prop) : runs m o Q -> (forall x o', Q x o' -> R x o') -> runs m o R.
Proof. intros (x & o' & E & H) K. exists x, o'. split; [exact E|]. now apply K. Qed.

Lemma position_some {X} (p : X -> bool) l i : position p l = Some i -> exists x, nth_error l i = Some x /\ p x = true.
Proof.
  revert i. induction l as [|x l IH]; intros i; cbn [position]; [discriminate|]. destruct (p x) eqn:E.
  - intros H. injection H as <-. exists x. now split.
  - destruct (position p l) as [j|]; cbn [option_map]; [|discriminate]. intros H. injection H as <-. now apply IH.
Qed.
Lemma position_none {X} (p : X -> bool) l : position p l = None -> forall x, In x l -> p x = false.
Proof.
  induction l as [|x l IH]; cbn [position]; intros H y I; [destruct I|]. destruct (p x) eqn:E; [discriminate|].
  destruct (position p l); [discriminate|]. destruct I as [<-|I]; [exact E|]. now apply IH.
Qed.
Lemma has_in n l : has n l = true <-> In n l.
Proof. unfold has. rewrite existsb_exists. split; [intros (x & I & E); apply String.eqb_eq in E; now subst x|intros I; exists n; split; [exact I|apply String.eqb_refl]]. Qed.
Lemma has_not n l : ~ In n l -> has n l = false.
Proof. intros H. apply not_true_is_false. intros E. now apply H, has_in. Qed.

Lemma nodup_app {X} (a b : list X) : NoDup a -> NoDup b -> (forall x, In x a -> ~ In x b) -> NoDup (a ++ b).
Proof.
  induction a as [|x a IH]; intros A B D; [exact B|]. inversion A; subst. cbn. constructor.
  - intros I. apply in_app_or in I. destruct I as [I|I]; [tauto|]. apply (D x); [now left|exact I].
  - apply IH; [assumption|exact B|]. intros y I. apply D. now right.
Qed.

Lemma tl_skipn {X} (l : list X) : forall i, tl (skipn i l) = skipn (S i) l.
Proof. induction l as [|x l IH]; intros [|i]; [reflexivity ..|]. change (tl (skipn i l) = skipn (S i) l). apply IH. Qed.

Definition dims (o : fobj) : list ncdim := map do_dim (o_dims o).
Definition un (d : ncdim) : dimobj := mk_dimobj d None.
Definition vname (x : varobj) : string := v_name (vo_var x).

Section Registering.
Variable var : string -> ncvar.
Variable dom : list Z.
Variable all : list string.
Definition Pd (d : ncdim) : Prop := d = frame_dim \/ exists n, In n all /\ In d (v_dims (var n)).
Hypothesis PF : forall d d', Pd d -> Pd d' -> d_name d = d_name d' -> d = d'.

(** Dimensions and extents of an object. *)
Record dinv (o : fobj) : Prop := mk_dinv {
  di_all : forall d, In d (dims o) -> Pd d;
  di_nodup : NoDup (map d_name (dims o));
  di_frame : In frame_dim (dims o);
  di_grid : length (o_grid o) = 3%nat /\ forall i, (i < length dom)%nat -> zn (o_grid o) i = 0 \/ zn (o_grid o) i = zn dom i
}.
(** Only dimensions (and extents) are new. *)
Definition extd (o o' : fobj) : Prop :=
  (exists ds, o_dims o' = o_dims o ++ map un ds) /\ o_vars o' = o_vars o /\ o_subs o' = o_subs o /\ o_pixels o' = o_pixels o.
Lemma extd_refl o : extd o o.
Proof. split; [exists []; now rewrite app_nil_r|auto]. Qed.
Lemma extd_trans a b c : extd a b -> extd b c -> extd a c.
Proof.
  intros ((ds & E) & E1 & E2 & E3) ((ds' & F) & F1 & F2 & F3). split; [|split; [|split]]; try congruence.
  exists (ds ++ ds'). now rewrite F, E, map_app, app_assoc.
Qed.
Lemma dims_ext o o' ds : o_dims o' = o_dims o ++ map un ds -> dims o' = dims o ++ ds.
Proof. unfold dims. intros ->. rewrite map_app, map_map. f_equal. apply map_id. Qed.
Definition points (o : fobj) (refs : list nat) (ds : list ncdim) : Prop := map (nth_error (dims o)) refs = map Some ds.
Lemma points_more o o' refs ds l : dims o' = dims o ++ l -> points o refs ds -> points o' refs ds.
Proof.
  unfold points. intros E. revert ds. induction refs as [|i refs IH]; intros [|d ds] H; cbn [map] in *; try discriminate; [reflexivity|].
  injection H as H1 H2. f_equal; [|now apply IH]. rewrite E, nth_error_app1; [exact H1|]. apply nth_error_Some. rewrite H1. discriminate.
Qed.
Lemma points_ext o o' refs ds : extd o o' -> points o refs ds -> points o' refs ds.
Proof. intros ((l & E) & _). apply dims_ext in E. now apply points_more with l. Qed.
Lemma points_app o a b c d : points o a b -> points o c d -> points o (a ++ c) (b ++ d).
Proof. unfold points. intros H H'. now rewrite !map_app, H, H'. Qed.
Lemma dims_at_points o refs ds : points o refs ds -> dims_at o refs = ds.
Proof.
  unfold points, dims_at, dims. revert ds. induction refs as [|i refs IH]; intros [|d ds] H; cbn [map flat_map] in *; try discriminate; [reflexivity|].
  injection H as H1 H2. rewrite nth_error_map in H1. destruct (nth_error (o_dims o) i) as [x|]; cbn [option_map] in H1; [|discriminate].
  injection H1 as ->. cbn [app]. f_equal. now apply IH.
Qed.

Lemma dim_equal_iff d x : dim_equal d x = true <-> do_dim x = d.
Proof.
  unfold dim_equal. rewrite andb_true_iff, String.eqb_eq, Z.eqb_eq. destruct (do_dim x), d. cbn. split; [intros [-> ->]; reflexivity|intros E; injection E as -> ->; now split].
Qed.
Lemma found o d i : position (dim_equal d) (o_dims o) = Some i -> nth_error (dims o) i = Some d.
Proof.
  intros E. apply position_some in E. destruct E as (x & E1 & E2). apply dim_equal_iff in E2. unfold dims. now rewrite nth_error_map, E1, <- E2.
Qed.
Lemma add_dim_runs d o : dinv o -> Pd d -> runs (add_dim d) o (fun i o' => dinv o' /\ extd o o' /\ points o' [i] [d]).
Proof.
  intros H P. unfold runs, add_dim. destruct (position (dim_equal d) (o_dims o)) as [i|] eqn:E.
  - exists i, o. split; [reflexivity|]. split; [exact H|]. split; [apply extd_refl|]. unfold points. cbn [map]. now rewrite (found _ _ _ E).
  - exists (length (o_dims o)), (set_dims (o_dims o ++ [mk_dimobj d None]) o). split; [reflexivity|].
    assert (ED : dims (set_dims (o_dims o ++ [mk_dimobj d None]) o) = dims o ++ [d]) by (unfold dims; cbn [o_dims set_dims]; now rewrite map_app).
    split; [|split].
    + destruct H as [H1 H2 H3 H4]. constructor; [| | |exact H4]; rewrite ED.
      * intros x I. apply in_app_or in I. destruct I as [I|[<-|[]]]; auto.
      * rewrite map_app. cbn [map]. apply nodup_app.
        -- exact H2.
        -- repeat constructor. intros [].
        -- intros x I [<-|[]]. apply in_map_iff in I. destruct I as (e & EN & I).
           assert (e = d) by (apply PF; [now apply H1|exact P|exact EN]). subst e.
           unfold dims in I. apply in_map_iff in I. destruct I as (y & EY & I). pose proof (position_none _ _ E _ I) as F.
           apply dim_equal_iff in EY. congruence.
      * apply in_or_app. now left.
    + split; [exists [d]; reflexivity|auto].
    + unfold points. cbn [map]. rewrite ED, nth_error_app2; unfold dims; rewrite map_length; [|lia]. now rewrite Nat.sub_diag.
Qed.
Lemma find_frame_runs o : dinv o -> runs (find_dim frame_dim) o (fun i o' => o' = o /\ points o [i] [frame_dim]).
Proof.
  intros H. unfold runs, find_dim. destruct (position (dim_equal frame_dim) (o_dims o)) as [i|] eqn:E.
  - exists i, o. split; [reflexivity|]. split; [reflexivity|]. unfold points. cbn [map]. now rewrite (found _ _ _ E).
  - exfalso. pose proof (di_frame o H) as I. unfold dims in I. apply in_map_iff in I. destruct I as (x & EX & I).
    pose proof (position_none _ _ E _ I) as F. apply dim_equal_iff in EX. congruence.
Qed.
Lemma each_dim_runs ds : forall o, dinv o -> (forall d, In d ds -> Pd d) ->
  runs (meach add_dim ds) o (fun refs o' => dinv o' /\ extd o o' /\ points o' refs ds).
Proof.
  induction ds as [|d ds IH]; intros o H P; cbn [meach].
  - apply runs_ret. split; [exact H|]. split; [apply extd_refl|reflexivity].
  - eapply runs_bind; [apply add_dim_runs; [exact H|apply P; now left]|]. intros i o1 (H1 & E1 & P1).
    eapply runs_bind; [apply IH; [exact H1|intros x I; apply P; now right]|]. intros refs o2 (H2 & E2 & P2).
    apply runs_ret. split; [exact H2|]. split; [eapply extd_trans; eassumption|].
    apply (points_app o2 [i] [d]); [eapply points_ext; eassumption|exact P2].
Qed.
Lemma set_grid_dinv o i : (i < length dom)%nat -> dinv o -> dinv (set_grid (upd (o_grid o) i (zn dom i)) o).
Proof.
  intros L [H1 H2 H3 [H4 H5]]. constructor; [exact H1|exact H2|exact H3|]. cbn [o_grid set_grid].
  split; [now rewrite upd_length|]. intros j Lj. destruct (Nat.eq_dec j i) as [->|N].
  - destruct (lt_dec i (length (o_grid o))) as [Li|Li]; [right; unfold zn at 1; now rewrite nth_upd_same|]. rewrite upd_out by lia. now apply H5.
  - unfold zn at 1 3; rewrite nth_upd_other by congruence. now apply H5.
Qed.
Lemma grid_runs : (length dom <= 3)%nat -> forall dm names i o, dinv o -> names = skipn i grid_names -> dm = skipn i dom ->
  (i + length dm = length dom)%nat -> (forall d, In d (map (fun p => mk_ncdim (fst p) (snd p)) (combine names dm)) -> Pd d) ->
  runs (grid_loop names i dm) o (fun refs o' => dinv o' /\ extd o o' /\ points o' refs (map (fun p => mk_ncdim (fst p) (snd p)) (combine names dm))).
Proof.
  intros L3 dm. induction dm as [|n dm IH]; intros names i o H EN ED L P.
  - replace (grid_loop names i []) with (@mret fobj (list nat) []) by now destruct names.
    apply runs_ret. split; [exact H|]. split; [apply extd_refl|]. replace (combine names []) with (@nil (string * Z)) by now destruct names. reflexivity.
  - cbn [length] in L. assert (Li : (i < length dom)%nat) by lia.
    destruct names as [|name names].
    { exfalso. apply (f_equal (@length string)) in EN. rewrite skipn_length in EN. cbn [length grid_names] in EN. lia. }
    cbn [grid_loop]. pose proof (di_grid o H) as [G1 G2].
    assert (EZ : zn dom i = n).
    { unfold zn. rewrite <- (firstn_skipn i dom), <- ED, app_nth2; rewrite firstn_length_le by lia; [|lia]. now rewrite Nat.sub_diag. }
    assert (EO : nth_error (o_grid o) i = Some (zn (o_grid o) i)) by (unfold zn; apply nth_error_nth'; lia).
    unfold runs. rewrite EO.
    assert (EC : negb (zn (o_grid o) i =? 0) && negb (zn (o_grid o) i =? n) = false).
    { destruct (G2 i Li) as [-> | ->]; [reflexivity|]. rewrite EZ, Z.eqb_refl. now destruct (n =? 0). }
    rewrite EC.
    assert (EM : compute_dim_name name "" = name).
    { unfold compute_dim_name. reflexivity. }
    change (runs (do r <- add_dim (mk_ncdim (compute_dim_name name "") n); do rs <- grid_loop names (S i) dm; mret (r :: rs))
      (set_grid (upd (o_grid o) i n) o) (fun refs o' => dinv o' /\ extd o o' /\ points o' refs (map (fun p => mk_ncdim (fst p) (snd p)) (combine (name :: names) (n :: dm))))).
    rewrite EM. cbn [combine map fst snd] in P |- *.
    assert (H0 : dinv (set_grid (upd (o_grid o) i n) o)) by (rewrite <- EZ; now apply set_grid_dinv).
    assert (E0 : extd o (set_grid (upd (o_grid o) i n) o)) by (split; [exists []; cbn [set_grid o_dims map]; now rewrite app_nil_r|auto]).
    eapply runs_bind; [apply add_dim_runs; [exact H0|apply P; now left]|]. intros r o1 (H1 & E1 & P1).
    eapply runs_bind.
    + apply IH; [exact H1| | |lia|intros d I; apply P; now right].
      * apply (f_equal (@tl string)) in EN. cbn [tl] in EN. rewrite EN. apply tl_skipn.
      * apply (f_equal (@tl Z)) in ED. cbn [tl] in ED. rewrite ED. apply tl_skipn.
    + intros refs o2 (H2 & E2 & P2). apply runs_ret. split; [exact H2|].
      split; [eapply extd_trans; [exact E0|eapply extd_trans; eassumption]|].
      apply (points_app o2 [r] [mk_ncdim name n]); [eapply points_ext; eassumption|exact P2].
Qed.
End Registering.
